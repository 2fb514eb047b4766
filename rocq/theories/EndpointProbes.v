(** What a probe remembers, what was sent for it, and what its failure does. *)
From Coq Require Import Permutation.
From Verif Require Import EndpointModel MapFacts BaseFacts CoreFacts CoreInv CoreSteps CoreTrans EndpointSteps EndpointInv EndpointHist EndpointRuns EndpointFacts.
Local Open Scope N_scope.

Section Probes.
Variable C : cfg.
Notation LID := (c_id C).
Notation kinv := (kinv C).
Notation recd e id := (aget id (k_mem (e_core e))).

(** ** Becoming suspect in the core *)
Definition is_susp (r : option member) : Prop := match r with Some m => m_state m = PSuspect | None => False end.
Lemma trans_susp o now k k' id r r' : mtrans C o now k k' id r r' -> ~ is_susp r -> is_susp r' ->
  exists inc from m m', id <> LID /\ origin C o now (GSuspect inc id from) /\ r = Some m /\ r' = Some m' /\
    m_state m = PAlive /\ m_inc m <= inc /\ m_inc m' = inc /\ m_gen m' = m_gen m /\ m_server m' = m_server m.
Proof.
  intros T NS S. destruct T; cbn in NS, S; try contradiction; try discriminate; try (congruence).
  - exists inc, from, m. eexists. split; [assumption|]. split; [eassumption|]. repeat split; try reflexivity; assumption.
  - destruct (id =? from); discriminate.
Qed.
Lemma suspect_trans inc i from now k k' id r r' : mtrans C (KSuspect inc i from now) now k k' id r r' -> id <> LID -> r' = r \/
  (is_susp r /\ exists m m', r = Some m /\ r' = Some m' /\ m_state m' = PSuspect /\ m_inc m' = m_inc m /\ m_gen m' = m_gen m /\ m_server m' = m_server m) \/
  (id = i /\ exists m m', r = Some m /\ r' = Some m' /\ m_state m = PAlive /\ m_inc m <= inc /\ m_state m' = PSuspect /\ m_inc m' = inc /\
     m_gen m' = m_gen m /\ m_server m' = m_server m).
Proof.
  intros T NL. destruct T; auto; try congruence; try discriminate; try (destruct H0 as [_ H0]; discriminate).
  - right. left. split; [assumption|]. exists m. eexists. split; [reflexivity|]. split; [reflexivity|]. cbn. auto.
  - right. right. destruct H0 as [_ [= -> -> ->]]. split; [reflexivity|]. exists m. eexists. split; [reflexivity|]. split; [reflexivity|]. cbn. auto 8.
Qed.
Lemma steps_susp o now k k' id : ksteps C o now k k' -> kinv k -> ~ is_susp (rec_at k id) -> is_susp (rec_at k' id) ->
  exists inc from, id <> LID /\ origin C o now (GSuspect inc id from).
Proof.
  induction 1 as [k|k1 k2 k3 S _ IH]; intros K NS SU; [contradiction|].
  pose proof (step_trans C o now k1 k2 id K S) as T.
  assert (is_susp (rec_at k2 id) \/ ~ is_susp (rec_at k2 id)) as [Y|Y].
  { destruct (rec_at k2 id) as [m|]; cbn; [destruct (m_state m); auto; right; discriminate|auto]. }
  - destruct (trans_susp _ _ _ _ _ _ _ T NS Y) as (inc & from & _ & _ & A & B & _). eauto.
  - apply IH; [eapply kinv_step; eauto|exact Y|exact SU].
Qed.
Lemma op_susp o k id : kinv k -> ~ is_susp (rec_at k id) -> is_susp (rec_at (fst (core_step C k o)) id) ->
  exists inc from, id <> LID /\ origin C o (op_now o) (GSuspect inc id from).
Proof. intros K. apply steps_susp; [apply core_step_steps, K|exact K]. Qed.

(** ** Growth of what the driver is yet to see *)
Definition grows (e e' : ep) : Prop := (exists l, e_tx e' = e_tx e ++ l) /\ exists l, k_ev (e_core e') = k_ev (e_core e) ++ l.
Lemma grows_refl e : grows e e.
Proof. split; exists []; symmetry; apply app_nil_r. Qed.
Lemma grows_trans a b c : grows a b -> grows b c -> grows a c.
Proof. intros [(l1 & A1) (l2 & A2)] [(l3 & A3) (l4 & A4)]. split; eexists; [rewrite A3, A1|rewrite A4, A2]; rewrite <- app_assoc; reflexivity. Qed.
Lemma grows_same e e' : e_core e' = e_core e -> e_tx e' = e_tx e -> grows e e'.
Proof. intros A B. split; exists []; rewrite ?A, ?B, app_nil_r; reflexivity. Qed.
Lemma grows_push t e : grows e (push t e).
Proof. split; [exists [t]; reflexivity|exists []; symmetry; apply app_nil_r]. Qed.
Definition no_poll (o : cop) : Prop := match o with KPoll | KLeave _ => False | _ => True end.
Lemma step_ev o now k k' : no_poll o -> kstep C o now k k' -> exists l, k_ev k' = k_ev k ++ l.
Proof.
  assert (forall id x k, k_ev (bcast C id x k) = k_ev k) as B by reflexivity.
  intros NP S. destruct S; subst; try contradiction; cbv zeta; cbn [k_ev emit upd k_set_mem k_set_inc k_set_aw k_set_ev k_set_sidx k_set_bc k_set_adm k_set_draws k_set_life bumpv k_set_ver]; rewrite ?B;
    try (exists []; symmetry; apply app_nil_r); try (eexists; reflexivity).
  - destruct takeover, (dead_or_left _); try (eexists; reflexivity); destruct (negb _); try (eexists; reflexivity); exists []; symmetry; apply app_nil_r.
  - exists []. rewrite app_nil_r. unfold reset_members. cbv zeta. cbn [k_ev k_set_mem k_set_draws]. generalize (map fst (filter (removable C now) (k_mem k))) as ids. intros ids.
    assert (k_ev (match ids with [] => k | _ => bumpv k end) = k_ev k) as E by (destruct ids; reflexivity). revert E.
    generalize (match ids with [] => k | _ => bumpv k end) as k1. induction ids as [|i ids IH]; intros k1 E; [exact E|]. cbn [fold_left]. apply IH. exact E.
Qed.
Lemma op_ev o k : kinv k -> no_poll o -> exists l, k_ev (fst (core_step C k o)) = k_ev k ++ l.
Proof.
  intros K NP. pose proof (core_step_steps C k o K) as S. clear K. induction S as [k|k1 k2 k3 S _ (l & IH)]; [exists []; symmetry; apply app_nil_r|].
  destruct (step_ev _ _ _ _ NP S) as (l' & E). exists (l' ++ l). rewrite IH, E, app_assoc. reflexivity.
Qed.
Lemma grows_act o e : kinv (e_core e) -> no_poll o -> grows e (act C o e).
Proof. intros K NP. split; [exists []; symmetry; apply app_nil_r|apply op_ev; assumption]. Qed.
Lemma kinv_act o e : kinv (e_core e) -> kinv (e_core (act C o e)).
Proof. intros K. apply kinv_core_step, K. Qed.

(** ** What a probe remembers and what was sent for it *)
Definition snap (p : probe) := (p_target p, p_inc p, p_gen p, p_kind p, p_sent p, p_fail p).
Definition carried (t : transmit) : list (N * msg) := match t with TPacket to m => [(to, m)] | TCompound to ms => map (pair to) ms end.
Definition sent_for (s : N) (t : nstate) (e : ep) : Prop :=
  let nd := mkNode (ns_id t) (ns_addr t) in
  (exists x, In x (e_tx e) /\ (In (ns_addr t, MPing s (lnode C) nd) (carried x) \/ exists to, In (to, MIndirectPing s (lnode C) nd) (carried x))) \/
  exists rid d, In (EvDial rid (ns_addr t) d) (k_ev (e_core e)).
Lemma sent_grows s t e e' : grows e e' -> sent_for s t e -> sent_for s t e'.
Proof.
  intros [(l & A) (l' & B)] [(x & I & H)|(rid & d & I)]; [left; exists x|right; exists rid, d]; rewrite ?A, ?B; [split; [|exact H]|]; apply in_or_app; left; exact I.
Qed.
(** every probe of [e'] was there in [e], and if it counts as sent it was so before or has been sent for *)
Definition follows (e e' : ep) : Prop := kinv (e_core e) ->
  kinv (e_core e') /\ grows e e' /\
  forall s p', aget s (e_probes e') = Some p' -> exists p, aget s (e_probes e) = Some p /\ snap p' = snap p /\
    (p_disp p' = true -> p_disp p = true \/ sent_for s (p_target p) e').
Lemma fol_refl e : follows e e.
Proof. intros K. split; [exact K|]. split; [apply grows_refl|]. intros s p G. exists p. auto. Qed.
Lemma fol_trans a b c : follows a b -> follows b c -> follows a c.
Proof.
  intros F1 F2 K. destruct (F1 K) as (K1 & G1 & P1). destruct (F2 K1) as (K2 & G2 & P2). split; [exact K2|]. split; [eapply grows_trans; eauto|].
  intros s p2 A. destruct (P2 s p2 A) as (p1 & A1 & E1 & D1). destruct (P1 s p1 A1) as (p & A0 & E0 & D0). exists p. split; [exact A0|]. split; [congruence|].
  assert (p_target p1 = p_target p) as ET by (unfold snap in E0; congruence).
  intros D. destruct (D1 D) as [D'|D']; [|right; rewrite <- ET; exact D']. destruct (D0 D') as [|D'']; [auto|]. right. eapply sent_grows; eauto.
Qed.
Lemma fol_same e e' : e_core e' = e_core e -> e_tx e' = e_tx e -> e_probes e' = e_probes e -> follows e e'.
Proof. intros A B P K. rewrite A, P. split; [exact K|]. split; [apply grows_same; assumption|]. intros s p G. exists p. auto. Qed.
Lemma fol_act o e : no_poll o -> follows e (act C o e).
Proof. intros NP K. split; [apply kinv_act, K|]. split; [apply grows_act; assumption|]. intros s p G. exists p. auto. Qed.
Lemma fol_push t e : follows e (push t e).
Proof. intros K. split; [exact K|]. split; [apply grows_push|]. intros s p G. exists p. auto. Qed.
Lemma fol_fold {A} (f : ep -> A -> ep) l : (forall e a, follows e (f e a)) -> forall e, follows e (fold_left f l e).
Proof. intros H. induction l as [|a l IH]; intros e; [apply fol_refl|]. cbn [fold_left]. eapply fol_trans; [apply H|apply IH]. Qed.
Lemma fol_fit to m e : follows e (fst (push_fit C to m e)).
Proof. unfold push_fit. destruct (_ <=? _); [apply fol_push|apply fol_refl]. Qed.
(** dropping probes *)
Lemma fol_del s e e' : e_core e' = e_core e -> e_tx e' = e_tx e -> e_probes e' = adel s (e_probes e) -> follows e e'.
Proof.
  intros A B P K. rewrite A, P. split; [exact K|]. split; [apply grows_same; assumption|]. intros j p G. rewrite aget_adel in G.
  destruct (_ =? _); [discriminate|]. exists p. auto.
Qed.
(** a phase change *)
Lemma fol_upd s p p' e : aget s (e_probes e) = Some p -> snap p' = snap p -> (p_disp p' = true -> p_disp p = true \/ sent_for s (p_target p) e) ->
  follows e (e_set_probes (aset s p' (e_probes e)) e).
Proof.
  intros G E D K. split; [exact K|]. set (e' := e_set_probes _ e). assert (grows e e') as GR by (apply grows_same; reflexivity). split; [exact GR|].
  intros j q Q. unfold e' in Q. cbn [e_probes e_set_probes] in Q. rewrite aget_aset in Q.
  destruct (N.eqb_spec j s) as [->|]; [|exists q; auto]. apply Some_inj in Q. subst q. exists p. split; [exact G|]. split; [exact E|].
  intros T. destruct (D T); [auto|right; eapply sent_grows; eauto].
Qed.
Lemma fol_fail s now e : follows e (probe_fail C s now e).
Proof.
  unfold probe_fail. destruct (aget s (e_probes e)) as [p|]; [|apply fol_refl]. set (e1 := e_set_acks _ _).
  set (e2 := match p_phase p with PhIndirect _ _ _ (Some rid) _ => remove_intent rid e1 | _ => e1 end).
  assert (follows e e2) as F by (apply (fol_del s); unfold e2; destruct (p_phase p) as [|? ? ? [?|] ?]; reflexivity).
  clearbody e2. cbv zeta. destruct (p_kind p).
  - destruct (negb _); [exact F|]. eapply fol_trans; [exact F|]. destruct (same_instance _ _).
    + eapply fol_trans; apply fol_act; exact Logic.I.
    + apply fol_act; exact Logic.I.
  - eapply fol_trans; [exact F|apply fol_act; exact Logic.I].
Qed.
Lemma fol_ok s d pl now e : follows e (probe_ok C s d pl now e).
Proof.
  unfold probe_ok. destruct (aget s (e_probes e)) as [p|]; [|apply fol_refl]. destruct (_ <=? _); [apply fol_fail|]. set (e1 := e_set_acks _ _).
  assert (follows e e1) as F by (apply (fol_del s); reflexivity). clearbody e1. cbv zeta. destruct (p_kind p).
  - eapply fol_trans; [exact F|]. destruct d; [eapply fol_trans|]; apply fol_act; exact Logic.I.
  - eapply fol_trans; [exact F|apply fol_act; exact Logic.I].
Qed.
Lemma fol_ack from s pl now e : follows e (handle_ack C from s pl now e).
Proof.
  unfold handle_ack. destruct (ack_get s (e_acks e)) as [a|]; [|apply fol_refl]. destruct (negb _); [apply fol_refl|].
  match goal with |- follows e (if ?b then _ else _) => destruct b; [apply fol_refl|] end. cbv zeta.
  set (e1 := e_set_acks _ e). assert (follows e e1) as F by (apply fol_same; reflexivity). clearbody e1.
  destruct (a_kind a); try (eapply fol_trans; [exact F|apply fol_ok]).
  destruct (aget s (e_fwds e1)); [|exact F]. eapply fol_trans; [exact F|]. eapply fol_trans; [|apply fol_push]. apply fol_same; reflexivity.
Qed.
Lemma fol_nack from s now e : follows e (handle_nack from s now e).
Proof.
  unfold handle_nack. destruct (aget s (e_probes e)) as [p|] eqn:G; [|apply fol_refl]. destruct (_ <=? _); [apply fol_refl|].
  destruct (p_phase p); [apply fol_refl|]. destruct (_ && _); [|apply fol_refl]. apply (fol_upd s p); [exact G|reflexivity|cbn; auto].
Qed.
Lemma fol_retire s e : follows e (retire_reliable s e).
Proof.
  unfold retire_reliable. destruct (aget s (e_probes e)) as [p|] eqn:G; [|apply fol_refl]. destruct (p_phase p); [apply fol_refl|].
  apply (fol_upd s p); [exact G|reflexivity|cbn; auto].
Qed.
Lemma fol_resolve id e : follows e (resolve_intent id e).
Proof.
  unfold resolve_intent. destruct (aget id (e_int e)) as [i|]; [|apply fol_same; reflexivity]. cbv zeta.
  assert (follows e (remove_intent id e)) as F by (apply fol_same; reflexivity). destruct (in_kind i); try exact F. eapply fol_trans; [exact F|apply fol_retire].
Qed.
Lemma fol_expire_forward e s : follows e (expire_forward e s).
Proof. unfold expire_forward. destruct (aget s (e_fwds e)); [|apply fol_refl]. eapply fol_trans; [|apply fol_push]. apply fol_same; reflexivity. Qed.
Lemma fol_announce peer k d m e : follows e (snd (announce C (open_intent peer k d m e))).
Proof.
  rewrite open_intent_eq. destruct (runs e); unfold announce; cbn [e_int insert_intent e_set_int e_set_iidx e_set_sid]; destruct (aget _ _); cbn [snd];
    try (apply fol_same; reflexivity). eapply fol_trans; [|apply fol_act; exact Logic.I]. apply fol_same; reflexivity.
Qed.
Lemma fol_sends m l : forall st, follows (fst st) (fst (fold_left (send_indirect C m) l st)).
Proof.
  induction l as [|a l IH]; intros st; [apply fol_refl|]. cbn [fold_left]. eapply fol_trans; [|apply IH].
  unfold send_indirect. pose proof (fol_fit a m (fst st)) as K. destruct (push_fit C a m (fst st)) as [e' []]; exact K.
Qed.
Lemma sends_rest m l : forall st, let r := fold_left (send_indirect C m) l st in
  e_core (fst r) = e_core (fst st) /\ e_probes (fst r) = e_probes (fst st) /\ (forall to, In to (snd r) -> In to (snd st) \/ In (TPacket to m) (e_tx (fst r))).
Proof.
  induction l as [|a l IH]; intros st; cbv zeta; [cbn; auto|]. cbn [fold_left].
  assert (exists st', send_indirect C m st a = st' /\ e_core (fst st') = e_core (fst st) /\ e_probes (fst st') = e_probes (fst st) /\
    (forall to, In to (snd st') -> In to (snd st) \/ In (TPacket to m) (e_tx (fst st')))) as (st' & -> & A0 & B0 & D0).
  { unfold send_indirect, push_fit. destruct (elen C m <=? c_mtu C); eexists; (split; [reflexivity|]); cbn [fst snd]; repeat split; auto.
    intros to X. apply in_app_iff in X as [X|[<-|[]]]; [auto|]. right. apply in_or_app. right. left. reflexivity. }
  destruct (IH st') as (A & B & D). cbv zeta in *. rewrite A, B. split; [exact A0|]. split; [exact B0|]. intros to X. destruct (D to X) as [X'|]; [|auto].
  destruct (D0 to X') as [|Y]; [auto|]. right. destruct (keeps_sends C m l st') as [_ (l' & ->)]. apply in_or_app. left. exact Y.
Qed.

(** ** Asking helpers *)
Lemma fan_spec now e s p : kinv (e_core e) -> runs e = true -> aget s (e_probes e) = Some p ->
  exists e3, k_mem (e_core e3) = k_mem (e_core e) /\ e_probes e3 = e_probes e /\ follows e e3 /\
    (fan_out C now e s = probe_fail C s now e3 \/
     (now < p_fail p /\ exists ph, fan_out C now e s = e_set_probes (aset s (p_set_phase ph (p_set_disp true p)) (e_probes e3)) e3 /\ sent_for s (p_target p) e3)).
Proof.
  intros K R G. unfold fan_out. rewrite G. cbv zeta. unfold pick. set (e1 := act C (KDraws _) e).
  assert (follows e e1) as F1 by (apply fol_act; exact Logic.I).
  assert (k_mem (e_core e1) = k_mem (e_core e) /\ e_probes e1 = e_probes e /\ runs e1 = true) as (M1 & P1 & R1) by (repeat split; exact R).
  set (ch := btake _ _). clearbody e1 ch.
  destruct (N.leb_spec (p_fail p) now) as [|L]; [exists e1; auto|].
  set (Y := if existsb _ _ then _ else _).
  assert (k_mem (e_core (snd Y)) = k_mem (e_core e) /\ e_probes (snd Y) = e_probes e /\ follows e (snd Y) /\
    (fst Y <> None -> exists rid d, In (EvDial rid (ns_addr (p_target p)) d) (k_ev (e_core (snd Y))))) as (M2 & P2 & F2 & D2).
  { unfold Y. destruct (existsb _ _); [cbn [fst snd]; split; [exact M1|split; [exact P1|split; [exact F1|intros X; destruct (X eq_refl)]]]|]. unfold reliable_ping_direct.
    pose proof (fol_announce (ns_addr (p_target p)) (OKReliablePing s) (p_fail p) (MPing s (lnode C) (mkNode (ns_id (p_target p)) (ns_addr (p_target p)))) e1) as F.
    rewrite open_intent_eq, R1 in *. unfold announce in *. cbn [e_int insert_intent e_set_int e_set_iidx e_set_sid] in *. rewrite aget_aset_eq in *. cbn [fst snd] in *.
    split; [exact M1|]. split; [exact P1|]. split; [eapply fol_trans; eauto|]. intros _. exists (e_sid e1), (p_fail p). cbn. apply in_or_app. right. left. reflexivity. }
  destruct Y as [rid e2]. cbn [fst snd] in *.
  set (msg := MIndirectPing s (lnode C) (mkNode (ns_id (p_target p)) (ns_addr (p_target p)))).
  pose proof (fol_sends msg ch (e2, [])) as F3. destruct (sends_rest msg ch (e2, [])) as (A3 & B3 & D3). cbv zeta in *.
  destruct (fold_left _ ch (e2, [])) as [e3 peers]. cbn [fst snd] in *. exists e3. rewrite A3, B3. split; [exact M2|]. split; [exact P2|]. split; [eapply fol_trans; eauto|].
  destruct (_ && _) eqn:E; [left; reflexivity|]. right. split; [exact L|]. eexists. split; [reflexivity|].
  destruct peers as [|to peers].
  - destruct rid; [|discriminate]. right. rewrite A3. apply D2. discriminate.
  - left. destruct (D3 to (or_introl eq_refl)) as [[]|I]. exists (TPacket to msg). split; [exact I|]. right. exists to. left. reflexivity.
Qed.
Lemma fol_fan now e s : runs e = true -> follows e (fan_out C now e s).
Proof.
  intros R. destruct (aget s (e_probes e)) as [p|] eqn:G; [|unfold fan_out; rewrite G; apply fol_refl]. intros K.
  destruct (fan_spec now e s p K R G) as (e3 & M & P & F & [->|(L & ph & -> & SF)]).
  - exact (fol_trans _ _ _ F (fol_fail s now e3) K).
  - refine (fol_trans _ _ _ F _ K). apply (fol_upd s p); [rewrite P; exact G|reflexivity|]. intros _. right. exact SF.
Qed.

(** ** A failing probe *)
(** what justified a suspicion of [id] raised at [now] in state [e0] *)
Definition failed_probe (e0 : ep) (now id : N) (r : option member) : Prop :=
  exists s p m m', aget s (e_probes e0) = Some p /\ p_kind p = PKDetection /\ p_disp p = true /\ overdue now p /\
    ns_id (p_target p) = id /\ p_gen p <> 0 /\ recd e0 id = Some m /\ m_gen m = p_gen p /\ m_state m = PAlive /\ m_inc m <= p_inc p /\
    r = Some m' /\ m_state m' = PSuspect /\ m_inc m' = p_inc p /\ m_gen m' = m_gen m /\ m_server m' = m_server m.
Record failing (e0 : ep) (now : N) (e : ep) : Prop := mkFailing {
  fl_kinv : kinv (e_core e);
  fl_gen : forall id, option_map m_gen (recd e id) = option_map m_gen (recd e0 id);
  fl_rec : forall id, id <> LID -> ~ is_susp (recd e0 id) -> recd e id = recd e0 id \/ failed_probe e0 now id (recd e id) }.
Lemma failing_refl e now : kinv (e_core e) -> failing e now e.
Proof. intros K. constructor; auto. Qed.
Lemma failing_mem e0 now e e' : failing e0 now e -> kinv (e_core e') -> k_mem (e_core e') = k_mem (e_core e) -> failing e0 now e'.
Proof. intros [K G R] K' M. constructor; [exact K'|intros id; rewrite M; apply G|intros id; rewrite M; apply R]. Qed.
Lemma failing_fail e0 now e s : failing e0 now e -> aget s (e_probes e) = aget s (e_probes e0) ->
  (forall p, aget s (e_probes e0) = Some p -> overdue now p) -> failing e0 now (probe_fail C s now e).
Proof.
  intros F E O. pose proof (fol_fail s now e (fl_kinv _ _ _ F)) as (K' & _ & _). revert K'.
  unfold probe_fail. rewrite E. destruct (aget s (e_probes e0)) as [p|] eqn:G; [|intros _; exact F]. specialize (O p eq_refl).
  set (e1 := e_set_acks _ _). set (e2 := match p_phase p with PhIndirect _ _ _ (Some rid) _ => remove_intent rid e1 | _ => e1 end).
  assert (e_core e2 = e_core e) as E2 by (unfold e2; destruct (p_phase p) as [|? ? ? [?|] ?]; reflexivity). clearbody e2. clear e1.
  destruct (p_kind p) eqn:PK; [|intros K'; eapply failing_mem; [exact F|exact K'|cbn; rewrite E2; reflexivity]].
  destruct (p_disp p) eqn:PD; cbn [negb]; [|intros K'; eapply failing_mem; [exact F|exact K'|rewrite E2; reflexivity]].
  cbv zeta. set (e3 := act C (KHealthFail (severity p)) e2).
  assert (failing e0 now e3) as F3.
  { eapply failing_mem; [exact F| |cbn; rewrite E2; reflexivity]. apply kinv_act. rewrite E2. apply (fl_kinv _ _ _ F). }
  clearbody e3. destruct (same_instance p e3) eqn:SI; [|intros _; exact F3]. intros K'.
  unfold same_instance in SI. apply Bool.andb_true_iff in SI as [G0 SI]. destruct (N.eqb_spec (p_gen p) 0) as [|NG]; [discriminate|].
  destruct (recd e3 (ns_id (p_target p))) as [mt|] eqn:MT; [|discriminate]. apply N.eqb_eq in SI.
  set (o := KSuspect (p_inc p) (ns_id (p_target p)) LID now) in *.
  assert (forall id, mtrans C o now (e_core e3) (e_core (act C o e3)) id (recd e3 id) (recd (act C o e3) id)) as T.
  { intros id. apply (opt_trans C o (e_core e3) id (fl_kinv _ _ _ F3)). exact Logic.I. }
  destruct F3 as [K3 G3 R3]. constructor; [exact K'| |].
  - intros id. rewrite <- G3. specialize (T id). destruct T; try reflexivity; try discriminate; unfold o in *; cbn in H0; destruct H0 as [_ H0]; discriminate.
  - intros id NL NS. destruct (suspect_trans _ _ _ _ _ _ _ _ _ (T id) NL) as [E'|[(SU & m & m' & A1 & A2 & A3 & A4 & A5 & A6)|(EI & m & m' & A1 & A2 & A3 & A4 & A5 & A6 & A7 & A8)]].
    + rewrite E'. apply R3; assumption.
    + right. destruct (R3 id NL NS) as [Q|Q]; [rewrite <- Q in NS; contradiction|].
      destruct Q as (s1 & p1 & m1 & m1' & B1 & B2 & B3 & B4 & B5 & B6 & B7 & B8 & B9 & B10 & B11 & B12 & B13 & B14 & B15).
      exists s1, p1, m1, m'. assert (m1' = m) as -> by congruence. repeat split; auto; congruence.
    + right. subst id. destruct (R3 _ NL NS) as [Q|(_ & _ & _ & m1' & _ & _ & _ & _ & _ & _ & _ & _ & _ & _ & B11 & B12 & _)]; [|congruence].
      exists s, p, m, m'. repeat split; auto; congruence.
Qed.
Lemma fan_failing e0 now e s p d : failing e0 now e -> runs e = true -> aget s (e_probes e) = aget s (e_probes e0) -> aget s (e_probes e0) = Some p ->
  p_phase p = PhDirect d -> d <= now -> failing e0 now (fan_out C now e s).
Proof.
  intros F R E G P D. rewrite G in E. destruct (fan_spec now e s p (fl_kinv _ _ _ F) R E) as (e3 & M & PR & FO & [->|(_ & ph & -> & _)]).
  - apply failing_fail; [|rewrite PR; congruence|].
    + eapply failing_mem; [exact F| |exact M]. apply (FO (fl_kinv _ _ _ F)).
    + intros q Q. right. exists d. split; [congruence|exact D].
  - eapply failing_mem; [exact F| |exact M]. apply (FO (fl_kinv _ _ _ F)).
Qed.
Lemma fans_failing e0 now : forall l e, NoDup l -> failing e0 now e -> runs e = true ->
  (forall s, In s l -> aget s (e_probes e) = aget s (e_probes e0) /\ exists p d, aget s (e_probes e0) = Some p /\ p_phase p = PhDirect d /\ d <= now /\ p_kind p = PKDetection) ->
  failing e0 now (fold_left (fan_out C now) l e) /\ runs (fold_left (fan_out C now) l e) = true.
Proof.
  induction l as [|s l IH]; intros e ND F R H; [split; assumption|]. cbn [fold_left]. apply NoDup_cons_iff in ND as [NI ND].
  destruct (H s (or_introl eq_refl)) as (E & p & d & G & P & D & K). apply IH; [exact ND| | |].
  - eapply fan_failing; eauto.
  - rewrite (eto_runs C _ _ (fan_out_to C now e s p d R (eq_trans E G) P D K)). exact R.
  - intros s' I. rewrite fan_out_probes; [apply H; right; exact I|exact R|congruence].
Qed.
Lemma fails_failing e0 now : forall l e, NoDup l -> failing e0 now e ->
  (forall s, In s l -> aget s (e_probes e) = aget s (e_probes e0) /\ forall p, aget s (e_probes e0) = Some p -> overdue now p) ->
  failing e0 now (fold_left (fun e s => probe_fail C s now e) l e).
Proof.
  induction l as [|s l IH]; intros e ND F H; [exact F|]. cbn [fold_left]. apply NoDup_cons_iff in ND as [NI ND].
  destruct (H s (or_introl eq_refl)) as (E & O). apply IH; [exact ND|apply failing_fail; assumption|].
  intros s' I. rewrite probe_fail_probes. destruct (N.eqb_spec s' s) as [->|]; [contradiction|]. apply H. right. exact I.
Qed.
Lemma due_nodup {A} (f : N * A -> bool) (m : amap A) : NoDup (akeys m) -> NoDup (map fst (filter f m)).
Proof. intros ND. apply nodup_filter, ND. Qed.
Lemma fsm_failing now e : einv C e -> runs e = true -> failing e now (advance_fsm C now e).
Proof.
  intros I R. unfold advance_fsm. cbv zeta. set (fan := map fst (filter (fun p => match fsm_due C now (snd p) with FsmFan => true | _ => false end) (e_probes e))).
  assert (forall s, In s fan -> exists p, aget s (e_probes e) = Some p /\ fsm_due C now p = FsmFan) as HF.
  { intros s X. apply in_map_iff in X as ((s' & p) & <- & X). apply filter_In in X as [X Y]. apply (aget_of_in _ _ _ (ei_pnd _ _ I)) in X. exists p. split; [exact X|].
    cbn in Y. destruct (fsm_due C now p); congruence. }
  assert (forall s, In s fan -> exists p d, aget s (e_probes e) = Some p /\ p_phase p = PhDirect d /\ d <= now /\ p_kind p = PKDetection) as HD.
  { intros s X. destruct (HF s X) as (p & G & Y). unfold fsm_due in Y. destruct (_ <=? _); [discriminate|]. destruct (p_phase p) as [d|] eqn:P; [|discriminate].
    destruct (N.leb_spec (p_direct_deadline (c_probe_timeout C) p) now) as [L|]; [|discriminate]. destruct (p_kind p) eqn:PK; [|discriminate].
    exists p, d. pose proof (einv_shape C e I s p d G P) as E. unfold p_direct_deadline in L. rewrite <- E in L. auto. }
  assert (NoDup fan) as NF by (apply due_nodup, (ei_pnd _ _ I)).
  destruct (fans_failing e now fan e NF (failing_refl e now (ei_core _ _ I)) R) as [F1 R1]; [intros s X; split; [reflexivity|apply HD, X]|].
  destruct (fan_outs_to C now fan e NF R HD) as [_ E1].
  apply fails_failing; [apply due_nodup, (ei_pnd _ _ I)|exact F1|].
  intros s X. apply in_map_iff in X as ((s' & p) & <- & X). apply filter_In in X as [X Y]. apply (aget_of_in _ _ _ (ei_pnd _ _ I)) in X. cbn [fst snd] in *.
  split.
  - apply E1. intros Z. destruct (HF _ Z) as (q & G & Q). assert (q = p) as -> by congruence. rewrite Q in Y. discriminate.
  - intros q Q. assert (q = p) as -> by congruence. unfold fsm_due in Y. destruct (N.leb_spec (p_fail p) now) as [L|]; [left; exact L|].
    destruct (p_phase p) as [d|] eqn:P; [|discriminate]. destruct (N.leb_spec (p_direct_deadline (c_probe_timeout C) p) now) as [L|]; [|discriminate].
    right. exists d. split; [exact P|]. rewrite (einv_shape C e I _ p d X P). exact L.
Qed.

(** ** Starting a probe *)
Definition snapshot_of (p : probe) (r : option member) : Prop :=
  exists m, r = Some m /\ probeable C (ns_id (p_target p), m) = true /\ p_target p = m_server m /\ p_inc p = m_inc m /\ p_gen p = m_gen m.
(** as [follows], with probes begun on the way *)
Definition probing (now : N) (e e' : ep) : Prop := kinv (e_core e) ->
  kinv (e_core e') /\ grows e e' /\
  forall s p', aget s (e_probes e') = Some p' ->
    (exists p, aget s (e_probes e) = Some p /\ snap p' = snap p /\ (p_disp p' = true -> p_disp p = true \/ sent_for s (p_target p) e')) \/
    (p_kind p' = PKDetection /\ p_sent p' = now /\ snapshot_of p' (recd e' (ns_id (p_target p'))) /\ (p_disp p' = true -> sent_for s (p_target p') e')).
Lemma fol_probing now e e' : follows e e' -> probing now e e'.
Proof. intros F K. destruct (F K) as (A & B & P). split; [exact A|]. split; [exact B|]. intros s p' G. left. apply P, G. Qed.
Lemma fol_probing_trans now a b c : follows a b -> probing now b c -> probing now a c.
Proof.
  intros F1 F2 K. destruct (F1 K) as (K1 & G1 & P1). destruct (F2 K1) as (K2 & G2 & P2). split; [exact K2|]. split; [eapply grows_trans; eauto|].
  intros s p2 A. destruct (P2 s p2 A) as [(p1 & A1 & E1 & D1)|X]; [left|right; exact X].
  destruct (P1 s p1 A1) as (p & A0 & E0 & D0). exists p. split; [exact A0|]. split; [congruence|].
  assert (p_target p1 = p_target p) as ET by (unfold snap in E0; congruence).
  intros D. destruct (D1 D) as [D'|D']; [|right; rewrite <- ET; exact D']. destruct (D0 D') as [|D'']; [auto|]. right. eapply sent_grows; eauto.
Qed.
Lemma probing_fol_trans now a b c : probing now a b -> follows b c -> k_mem (e_core c) = k_mem (e_core b) -> probing now a c.
Proof.
  intros F1 F2 M K. destruct (F1 K) as (K1 & G1 & P1). destruct (F2 K1) as (K2 & G2 & P2). split; [exact K2|]. split; [eapply grows_trans; eauto|].
  intros s p2 A. destruct (P2 s p2 A) as (p1 & A1 & E1 & D1). assert (p_target p2 = p_target p1) as ET by (unfold snap in E1; congruence).
  destruct (P1 s p1 A1) as [(p & A0 & E0 & D0)|(B1 & B2 & B3 & B4)]; [left|right].
  - exists p. split; [exact A0|]. split; [congruence|]. assert (p_target p1 = p_target p) as ET' by (unfold snap in E0; congruence).
    intros D. destruct (D1 D) as [D'|D']; [|right; rewrite <- ET'; exact D']. destruct (D0 D') as [|D'']; [auto|]. right. eapply sent_grows; eauto.
  - unfold snapshot_of in *. unfold snap in E1. rewrite M, ET. repeat split; try congruence.
    + destruct B3 as (m & X1 & X2 & X3 & X4 & X5). exists m. rewrite ?ET. repeat split; auto; congruence.
    + intros D. destruct (D1 D) as [D'|D']; [|exact D']. eapply sent_grows; [exact G2|]. apply B4, D'.
Qed.
Lemma start_probing now e : probing now e (start_probe C now e).
Proof.
  unfold start_probe. destruct (negb _); [apply fol_probing, fol_refl|]. unfold next_target. destruct (scan C _ _ _) as [[id cur]|] eqn:SC; [|apply fol_probing, fol_refl].
  intros K. change (recd (e_set_pidx cur e) id) with (recd e id).
  apply scan_spec in SC as (m & i & NT & PB & _). apply nth_error_In in NT. apply (aget_of_in _ _ _ (ki_nodup _ _ K)) in NT. rewrite NT.
  destruct (alloc_seq _) as [[s e1]|] eqn:A; [|apply (fol_probing now e (e_set_pidx cur e)); [apply fol_same; reflexivity|exact K]]. apply alloc_seq_spec in A as (-> & _).
  cbv zeta. set (p := probe_new _ _ _ _ _ _ _). set (e1 := e_set_acks _ _).
  assert (ns_id (m_server m) = id) as EID by (apply (ki_rec _ _ K id m NT)).
  set (pg := MPing s (lnode C) (mkNode id (ns_addr (m_server m)))).
  match goal with |- context [let '(_, _) := ?x in _] => set (X := x) end.
  assert (e_core (fst X) = e_core e /\ e_probes (fst X) = aset s p (e_probes e) /\ (exists l, e_tx (fst X) = e_tx e ++ l) /\ (snd X = true -> sent_for s (m_server m) (fst X))) as (E1 & E2 & (l & E3) & E4).
  { unfold X, sent_for, push_fit. rewrite EID. fold pg.
    assert (forall b e', e_tx e' = e_tx e -> b = true -> exists x, In x (e_tx (push (TPacket (ns_addr (m_server m)) pg) e')) /\ (In (ns_addr (m_server m), pg) (carried x) \/ exists to, In (to, MIndirectPing s (lnode C) (mkNode id (ns_addr (m_server m)))) (carried x))) as HP.
    { intros b e' _ _. eexists. split; [apply in_or_app; right; left; reflexivity|]. left. left. reflexivity. }
    destruct (pstate_eqb _ _); [destruct (assembled C _ <=? _)|].
    - cbn [fst snd]. split; [reflexivity|]. split; [reflexivity|]. split; [eexists; reflexivity|]. intros _. left. eexists. split; [apply in_or_app; right; left; reflexivity|]. left. left. reflexivity.
    - destruct (elen C pg <=? _); destruct (elen C _ <=? _); cbn [fst snd]; (split; [reflexivity|]); (split; [reflexivity|]).
      + split; [eexists; cbn; rewrite <- app_assoc; reflexivity|]. intros _. left. eexists. split; [apply in_or_app; left; apply in_or_app; right; left; reflexivity|]. left. left. reflexivity.
      + split; [eexists; reflexivity|]. intros _. left. apply (HP true e1); reflexivity.
      + split; [eexists; reflexivity|]. discriminate.
      + split; [exists []; symmetry; apply app_nil_r|]. discriminate.
    - destruct (elen C pg <=? _); cbn [fst snd]; (split; [reflexivity|]); (split; [reflexivity|]).
      + split; [eexists; reflexivity|]. intros _. left. apply (HP true e1); reflexivity.
      + split; [exists []; symmetry; apply app_nil_r|]. discriminate. }
  destruct X as [e2 sent]. cbn [fst snd] in *. cbn [e_core e_set_probes]. rewrite E1. split; [exact K|].
  assert (grows e (e_set_probes (aset s (p_set_disp sent p) (e_probes e2)) e2)) as GR.
  { split; [exists l; exact E3|exists []; cbn; rewrite E1, app_nil_r; reflexivity]. }
  split; [exact GR|]. intros j q Q. cbn [e_probes e_set_probes] in Q. rewrite E2, !aget_aset in Q. destruct (N.eqb_spec j s) as [->|NE].
  - apply Some_inj in Q. subst q. right. cbn. split; [reflexivity|]. split; [reflexivity|]. split.
    + exists m. cbn. rewrite EID. repeat split; auto.
    + intros ->. destruct (E4 eq_refl) as [H|H]; [left; exact H|right; exact H].
  - left. exists q. split; [exact Q|]. split; [reflexivity|auto].
Qed.
Lemma fire_probing now e : probing now e (fire_probe C now e).
Proof.
  unfold fire_probe. destruct (e_np e) as [d|]; [|apply fol_probing, fol_refl]. destruct (_ <? _); [apply fol_probing, fol_refl|]. cbv zeta.
  set (e1 := if _ && _ then _ else _).
  assert (follows e e1) as F.
  { eapply fol_trans; [apply (fol_same e (e_set_psr (e_psr e + 1) e)); reflexivity|]. unfold e1. destruct (_ && _); [|apply fol_refl].
    eapply fol_trans; [apply (fol_act (KReset now)); exact Logic.I|]. apply fol_same; reflexivity. }
  clearbody e1. eapply fol_probing_trans; [exact F|]. eapply probing_fol_trans; [apply start_probing|apply fol_same; reflexivity|reflexivity].
Qed.
Definition calm (e e' : ep) : Prop := follows e e' /\ k_mem (e_core e') = k_mem (e_core e).
Lemma calm_trans a b c : calm a b -> calm b c -> calm a c.
Proof. intros [A1 A2] [B1 B2]. split; [eapply fol_trans; eauto|congruence]. Qed.
Lemma gossip_core e : e_core (fst (gossip_batch C e)) = fst (core_step C (e_core e) (gossip_op C e)).
Proof.
  unfold gossip_batch, gossip_op. destruct (peek_first_sendable _ _); [destruct (_ <? _); [reflexivity|]|]; destruct (take_broadcasts_measured _ _ _ _ _) as [[? got] used];
    unfold drain_user; destruct (ub_take _ _ _ _ _) as [[? ?] ?]; reflexivity.
Qed.
Lemma gossip_calm now e : calm e (fire_gossip C now e).
Proof.
  unfold fire_gossip. destruct (e_ng e); [|split; [apply fol_refl|reflexivity]]. destruct (_ <? _); [split; [apply fol_refl|reflexivity]|]. unfold pick.
  set (e1 := act C (KDraws _) e). assert (calm e e1) as K by (split; [apply fol_act; exact Logic.I|reflexivity]). clearbody e1.
  destruct (btake _ _); [eapply calm_trans; [exact K|split; [apply fol_same; reflexivity|reflexivity]]|].
  assert (calm e1 (fst (gossip_batch C e1))) as G.
  { destruct (gossip_rest C e1) as (P & _ & _ & _ & _ & T & _). pose proof (gossip_core e1) as EC. split.
    - intros V. rewrite EC. split; [apply kinv_core_step, V|]. split; [|rewrite P; intros s p Q; exists p; auto].
      split; [exists []; rewrite T, app_nil_r; reflexivity|]. rewrite EC. apply op_ev; [exact V|]. unfold gossip_op. destruct (peek_first_sendable _ _); [destruct (_ <? _)|]; exact Logic.I.
    - rewrite EC. unfold gossip_op. destruct (peek_first_sendable _ _); [destruct (_ <? _)|]; reflexivity. }
  destruct (gossip_batch C e1) as [g ms]. cbn [fst] in G. eapply calm_trans; [exact K|]. eapply calm_trans; [exact G|]. split; [|reflexivity].
  intros V. split; [exact V|]. split; [split; [eexists; reflexivity|exists []; symmetry; apply app_nil_r]|]. intros s p Q. exists p. auto.
Qed.
Lemma pp_calm now e : calm e (fire_pushpull C now e).
Proof.
  unfold fire_pushpull. destruct (e_npp e); [|split; [apply fol_refl|reflexivity]]. destruct (_ <? _); [split; [apply fol_refl|reflexivity]|]. cbv zeta.
  match goal with |- calm e (e_set_npp _ ?x) => set (e1 := x) end.
  assert (calm e e1) as K; [|eapply calm_trans; [exact K|split; [apply fol_same; reflexivity|reflexivity]]].
  unfold e1. destruct (live_addrs C e) as [|a l]; [split; [apply fol_refl|reflexivity]|]. unfold pick. set (e2 := act C (KDraws _) e).
  assert (calm e e2) as K2 by (split; [apply fol_act; exact Logic.I|reflexivity]). clearbody e2.
  destruct (btake _ _) as [|peer r]; [exact K2|]. eapply calm_trans; [exact K2|]. split; [apply fol_announce|]. unfold push_pull_direct. rewrite open_intent_eq.
  destruct (runs e2); unfold announce; cbn [e_int insert_intent e_set_int e_set_iidx e_set_sid]; destruct (aget _ _); reflexivity.
Qed.
Lemma refresh_calm e : calm e (refresh_cache e).
Proof. unfold refresh_cache. destruct (_ && _); (split; [first [apply fol_refl|apply fol_same; reflexivity]|reflexivity]). Qed.
Lemma core_forwards now e : e_core (fire_expired_forwards now e) = e_core e /\ follows e (fire_expired_forwards now e).
Proof.
  split; [|apply (fol_fold expire_forward); intros; apply fol_expire_forward]. unfold fire_expired_forwards. set (l := map _ _). clearbody l. revert e.
  induction l as [|s l IH]; intros e; [reflexivity|]. cbn [fold_left]. rewrite IH. unfold expire_forward. destruct (aget s _); reflexivity.
Qed.
Lemma core_intents now e : e_core (fire_expired_intents now e) = e_core e /\ follows e (fire_expired_intents now e).
Proof.
  split; [|apply (fol_fold (fun e id => resolve_intent id e)); intros; apply fol_resolve]. unfold fire_expired_intents. set (l := map _ _). clearbody l. revert e.
  induction l as [|s l IH]; intros e; [reflexivity|]. cbn [fold_left]. rewrite IH. unfold resolve_intent. destruct (aget s _) as [i|]; [|reflexivity]. cbv zeta.
  destruct (in_kind i); try reflexivity. unfold retire_reliable. destruct (aget _ _) as [p|]; [destruct (p_phase p)|]; reflexivity.
Qed.
Lemma fol_fsm now e : einv C e -> runs e = true -> follows e (advance_fsm C now e).
Proof.
  intros I R. unfold advance_fsm. cbv zeta. set (fan := map fst (filter (fun p => match fsm_due C now (snd p) with FsmFan => true | _ => false end) (e_probes e))).
  eapply fol_trans; [|apply (fol_fold (fun e s => probe_fail C s now e)); intros; apply fol_fail].
  assert (forall s, In s fan -> exists p d, aget s (e_probes e) = Some p /\ p_phase p = PhDirect d /\ d <= now /\ p_kind p = PKDetection) as HD.
  { intros s X. apply in_map_iff in X as ((s' & p) & <- & X). apply filter_In in X as [X Y]. apply (aget_of_in _ _ _ (ei_pnd _ _ I)) in X. cbn [snd fst] in *.
    unfold fsm_due in Y. destruct (_ <=? _); [discriminate|]. destruct (p_phase p) as [d|] eqn:P; [|discriminate].
    destruct (N.leb_spec (p_direct_deadline (c_probe_timeout C) p) now) as [L|]; [|discriminate]. destruct (p_kind p) eqn:PK; [|discriminate].
    exists p, d. pose proof (einv_shape C e I s' p d X P) as E. unfold p_direct_deadline in L. rewrite <- E in L. auto. }
  assert (NoDup fan) as NF by (apply due_nodup, (ei_pnd _ _ I)). clearbody fan. clear I. revert e R HD NF.
  induction fan as [|s l IH]; intros e R HD NF; [apply fol_refl|]. cbn [fold_left]. apply NoDup_cons_iff in NF as [NI NF].
  destruct (HD s (or_introl eq_refl)) as (p & d & G & P & D & K).
  eapply fol_trans; [apply fol_fan, R|]. apply IH; [|intros s' X|exact NF].
  - rewrite (eto_runs C _ _ (fan_out_to C now e s p d R G P D K)). exact R.
  - rewrite fan_out_probes; [apply HD; right; exact X|exact R|congruence].
Qed.

(** ** Every operation *)
Lemma timeout_parts now e : einv C e -> runs e = true ->
  let e1 := act C (KExpire now) e in let e2 := advance_fsm C now e1 in
  exists e4, e_core e4 = e_core e2 /\ follows e e2 /\ follows e2 e4 /\ probing now e4 (fire_probe C now e4) /\ calm (fire_probe C now e4) (handle_timeout C now e) /\ einv C e1 /\ runs e1 = true.
Proof.
  intros I R. cbv zeta. set (e1 := act C (KExpire now) e). set (e2 := advance_fsm C now e1).
  assert (eto C e e1) as T by (apply eto_core; exact Logic.I).
  assert (einv C e1) as I1 by (destruct T as (ks & T & _); eapply einv_steps; eauto). pose proof (runs_eto C _ _ T R) as R1.
  exists (fire_expired_intents now (fire_expired_forwards now e2)). destruct (core_forwards now e2) as [C3 F3]. destruct (core_intents now (fire_expired_forwards now e2)) as [C4 F4].
  split; [congruence|]. split; [eapply fol_trans; [apply (fol_act (KExpire now)); exact Logic.I|apply fol_fsm; assumption]|].
  split; [eapply fol_trans; eauto|]. split; [apply fire_probing|]. split; [|auto]. unfold handle_timeout. rewrite R. cbn [negb]. fold e1. fold e2.
  eapply calm_trans; [apply gossip_calm|]. eapply calm_trans; [apply pp_calm|]. apply refresh_calm.
Qed.
(** when an operation happens, for those that may begin a probe *)
Definition when (o : eop) : option N := match o with EStartProbe now | ETimeout now => Some now | _ => None end.
Lemma probe_origin e o s p' : einv C e -> aget s (e_probes (fst (ep_step C e o))) = Some p' -> p_kind p' = PKDetection ->
  let e' := fst (ep_step C e o) in
  (exists p, aget s (e_probes e) = Some p /\ snap p' = snap p /\ (p_disp p' = true -> p_disp p = true \/ sent_for s (p_target p) e')) \/
  (when o = Some (p_sent p') /\ snapshot_of p' (recd e' (ns_id (p_target p'))) /\ (p_disp p' = true -> sent_for s (p_target p') e')).
Proof.
  intros I G PK. cbv zeta. pose proof (ei_core _ _ I) as K.
  assert (forall now e', probing now e e' -> when o = Some now -> fst (ep_step C e o) = e' ->
    (exists p, aget s (e_probes e) = Some p /\ snap p' = snap p /\ (p_disp p' = true -> p_disp p = true \/ sent_for s (p_target p) e')) \/
    (when o = Some (p_sent p') /\ snapshot_of p' (recd e' (ns_id (p_target p'))) /\ (p_disp p' = true -> sent_for s (p_target p') e'))) as HP.
  { intros now e' PR W E. rewrite E in G. destruct (PR K) as (_ & _ & P). destruct (P s p' G) as [X|(_ & A & B & D)]; [left; exact X|right]. rewrite W, A. auto. }
  assert (forall e', follows e e' -> fst (ep_step C e o) = e' ->
    (exists p, aget s (e_probes e) = Some p /\ snap p' = snap p /\ (p_disp p' = true -> p_disp p = true \/ sent_for s (p_target p) e')) \/
    (when o = Some (p_sent p') /\ snapshot_of p' (recd e' (ns_id (p_target p'))) /\ (p_disp p' = true -> sent_for s (p_target p') e'))) as HF.
  { intros e' F E. rewrite E in G. destruct (F K) as (_ & _ & P). left. apply P, G. }
  assert (e_probes (fst (ep_step C e o)) = e_probes e ->
    (exists p, aget s (e_probes e) = Some p /\ snap p' = snap p /\ (p_disp p' = true -> p_disp p = true \/ sent_for s (p_target p) (fst (ep_step C e o)))) \/
    (when o = Some (p_sent p') /\ snapshot_of p' (recd (fst (ep_step C e o)) (ns_id (p_target p'))) /\ (p_disp p' = true -> sent_for s (p_target p') (fst (ep_step C e o))))) as HS.
  { intros E. rewrite E in G. left. exists p'. auto. }
  destruct o; try (apply HS; reflexivity).
  - cbn [ep_step fst] in *. unfold handle_packet in *. destruct (negb (runs e)); [apply (HF e); [apply fol_refl|reflexivity]|].
    destruct m; try (apply HS; reflexivity).
    + apply HS. unfold handle_ping. destruct (negb _); reflexivity.
    + apply HS. unfold handle_indirect_ping. destruct (negb _); [reflexivity|]. destruct (_ <=? _); [reflexivity|]. destruct (existsb _ _); [reflexivity|].
      destruct (alloc_seq e) as [[q e1]|] eqn:A; [|reflexivity]. apply alloc_seq_spec in A as (-> & _). cbv zeta. destruct (negb _); reflexivity.
    + eapply HF; [apply fol_ack|reflexivity].
    + eapply HF; [apply fol_nack|reflexivity].
  - destruct (runs e) eqn:R; [|eapply HF; [|reflexivity]; cbn [ep_step fst]; unfold handle_timeout; rewrite R; apply fol_refl].
    destruct (timeout_parts now e I R) as (e4 & _ & F2 & F4 & F5 & [F6 M6] & _). cbv zeta in *.
    eapply HP; [|reflexivity|reflexivity]. cbn [ep_step fst]. eapply fol_probing_trans; [exact F2|]. eapply fol_probing_trans; [exact F4|]. eapply probing_fol_trans; eauto.
  - cbn [ep_step fst] in *. unfold handle_stream_event in *. destruct ev; try (apply HS; reflexivity).
    + apply HS. destruct (negb _); [reflexivity|]. destruct (e_merge e _); [|reflexivity]. destruct user; reflexivity.
    + apply HS. destruct (negb _); [reflexivity|]. destruct (e_merge e _); [|reflexivity]. destruct user; reflexivity.
    + destruct (runs e); [|apply HS; reflexivity]. eapply HF; [apply fol_ok|reflexivity].
    + destruct (runs e); [|apply HS; reflexivity]. eapply HF; [apply fol_retire|reflexivity].
    + apply HS. destruct (runs e); reflexivity.
  - cbn [ep_step] in *. unfold ping in *. destruct (negb (runs e)); [apply HS; reflexivity|]. cbv zeta in *. destruct (alloc_seq e) as [[q e1]|] eqn:A; [|apply HS; reflexivity].
    apply alloc_seq_spec in A as (-> & _). destruct (_ <? _); [apply HS; reflexivity|]. cbn [fst e_probes push e_set_tx e_set_acks e_set_probes e_set_seq] in G. rewrite aget_aset in G.
    destruct (s =? q); [apply Some_inj in G; subst p'; discriminate|]. left. exists p'. auto.
  - eapply HP; [apply start_probing|reflexivity|reflexivity].
  - apply HS. cbn [ep_step]. unfold push_pull_direct. rewrite open_intent_eq. destruct (runs e); unfold announce; cbn beta iota; destruct (aget (e_sid e) _); reflexivity.
  - apply HS. cbn [ep_step]. unfold push_pull_direct, dialled. rewrite open_intent_eq. destruct (runs e); reflexivity.
  - apply HS. cbn [ep_step]. unfold reliable_ping_direct. rewrite open_intent_eq. destruct (runs e); unfold announce; cbn beta iota; destruct (aget (e_sid e) _); reflexivity.
  - apply HS. cbn [ep_step]. unfold reliable_ping_direct, dialled. rewrite open_intent_eq. destruct (runs e); reflexivity.
  - apply HS. cbn [ep_step]. unfold user_message_direct. destruct (runs e) eqn:R; [|reflexivity]. cbn [negb]. rewrite open_intent_eq, R. unfold announce; cbn beta iota; destruct (aget (e_sid e) _); reflexivity.
  - apply HS. cbn [ep_step]. unfold user_message_direct, dialled. destruct (runs e) eqn:R; [|reflexivity]. cbn [negb]. rewrite open_intent_eq, R. reflexivity.
  - cbn [ep_step] in *. unfold dial_succeeded in *. destruct (aget id (e_int e)); [|apply HS; reflexivity]. destruct (_ || _); [|apply HS; reflexivity]. eapply HF; [apply fol_resolve|reflexivity].
  - eapply HF; [apply fol_resolve|reflexivity].
  - apply HS. cbn [ep_step]. unfold accept_stream. destruct (negb _); reflexivity.
  - apply HS. cbn [ep_step fst]. destruct (runs e) eqn:R; [|unfold leave_with; rewrite R; reflexivity]. pose proof (leave_rest C now farewell e R) as X. cbv zeta in X. apply X.
  - apply HS. cbn [ep_step]. pose proof (poll_rest C e) as X. cbv zeta in X. destruct (poll_transmit C e). apply X.
  - apply HS. cbn [ep_step]. unfold set_ack_payload. destruct (negb _); [reflexivity|]. destruct (_ <? _); reflexivity.
  - apply HS. cbn [ep_step]. unfold set_snapshot. destruct (negb _); [reflexivity|]. destruct (snapshot_fits _ _); reflexivity.
  - apply HS. cbn [ep_step]. unfold queue_user. destruct (negb _); [reflexivity|]. destruct (_ <? _); reflexivity.
  - apply HS. cbn [ep_step]. unfold send_user. destruct (negb _); [reflexivity|]. destruct (_ <? _); reflexivity.
  - apply HS. cbn [ep_step]. unfold send_users, send_user. destruct (negb _); [reflexivity|]. destruct l as [|d [|d2 l]]; [reflexivity| |]; destruct (_ <? _); reflexivity.
  - apply HS. cbn [ep_step fst]. unfold start_scheduling, stagger. destruct (negb _); [reflexivity|]. cbv zeta.
    repeat match goal with |- context [if ?b then _ else _] => destruct b end; reflexivity.
  - cbn [ep_step fst e_probes e_set_probes e_set_fwds e_set_int] in *. rewrite (perm_aget (e_probes e)) in G; [left; exists p'; auto|apply shuffle_perm|apply (ei_pnd _ _ I)].
Qed.
(** ** Who becomes suspect, and why *)
Definition accused (o : eop) (id : N) : Prop :=
  let l := match o with EMerge l _ => l | EStreamEv (SEReply _ l _ _ _) _ | EStreamEv (SERequest _ l _ _ _) _ => l | _ => [] end in
  (exists from inc by_ now, o = EPacket from (MSuspect inc id by_) now) \/
  exists p, In p l /\ pn_id p = id /\ (pn_state p = PSuspect \/ pn_state p = PDead).
Lemma heard_suspect l now inc id from : origin C (KMerge l now) now (GSuspect inc id from) -> exists p, In p l /\ pn_id p = id /\ (pn_state p = PSuspect \/ pn_state p = PDead).
Proof.
  cbn. intros (_ & p & I & H). unfold heard in H. exists p. split; [exact I|]. destruct (pn_state p); try discriminate; injection H as _ E _; auto.
Qed.
Lemma expire_keeps now k id : kinv k -> ~ is_susp (rec_at k id) -> rec_at (fst (core_step C k (KExpire now))) id = rec_at k id.
Proof.
  intros K NS. change (rec_at (fire_expired_suspicions C now k) id = rec_at k id). unfold fire_expired_suspicions.
  assert (~ In id (expired_ids now (k_mem k))) as NI.
  { intros X. apply (in_expired now (k_mem k) id (ki_nodup _ _ K)) in X as (m & G & D). apply NS. unfold rec_at. rewrite G. cbn.
    unfold due in D. destruct (m_susp m) eqn:S; [|discriminate]. destruct (ki_rec _ _ K id m G) as [_ X]. destruct (m_state m); congruence || contradiction. }
  assert (forall i, In i (expired_ids now (k_mem k)) -> i <> LID) as NL by (intros i X; eapply expired_not_local; eauto).
  revert NI NL K. generalize (expired_ids now (k_mem k)) as ids. intros ids. clear NS. revert k.
  induction ids as [|i ids IH]; intros k NI NL K; [reflexivity|]. cbn [fold_left].
  match goal with |- rec_at (fold_left _ ids ?x) id = _ => set (k1 := x) end.
  assert (kinv k1 /\ rec_at k1 id = rec_at k id) as [K1 E1].
  { unfold k1. unfold rec_at. set (inc := match aget i (k_mem k) with Some m => m_inc m | None => 0 end). clearbody inc.
    pose proof (kinv_core_step C k (KDead inc i LID now) K) as K1. split; [exact K1|].
    pose proof (opt_trans C (KDead inc i LID now) k id K Logic.I) as T. unfold rec_at in T.
    change (fst (core_step C k (KDead inc i LID now))) with (process_dead C inc i LID now k) in T. cbn [op_now] in T.
    set (r := aget id (k_mem k)) in *. set (r' := aget id (k_mem (process_dead C inc i LID now k))) in *. clearbody r'. clearbody r.
    assert (i <> LID) as NIL by (apply NL; left; reflexivity). assert (id <> i) as NID by (intros ->; apply NI; left; reflexivity).
    destruct T as [| ? ? ? ? OR AC | ? ? ? ? ? ? ? OR | ? ? ? ? ? OR | ? ? ? ? OR | ? ? OR | ? ? ? ? OR | | | |]; try reflexivity; try discriminate; try (destruct OR as [_ OR]; try discriminate; injection OR; congruence).
    destruct OR as [_ ->]. destruct AC as [AC _]. congruence. }
  rewrite IH; [exact E1|intros X; apply NI; right; exact X|intros j X; apply NL; right; exact X|exact K1].
Qed.
Lemma start_mem now e : k_mem (e_core (start_probe C now e)) = k_mem (e_core e).
Proof.
  unfold start_probe. destruct (negb _); [reflexivity|]. unfold next_target. destruct (scan C _ _ _) as [[i cur]|]; [|reflexivity].
  destruct (aget i _) as [m|]; [|reflexivity]. destruct (alloc_seq _) as [[s e2]|] eqn:A; [|reflexivity]. apply alloc_seq_spec in A as (-> & _).
  cbv zeta. match goal with |- context [let '(_, _) := ?x in _] => set (X := x) end.
  assert (e_core (fst X) = e_core e) as E.
  { unfold X, push_fit. destruct (pstate_eqb _ _); repeat (match goal with |- context [if ?b then _ else _] => destruct b end); reflexivity. }
  destruct X as [e3 sent]. cbn in *. rewrite E. reflexivity.
Qed.
Lemma probe_mem now e id m : kinv (e_core e) -> recd (fire_probe C now e) id = Some m -> recd e id = Some m.
Proof.
  intros K. unfold fire_probe. destruct (e_np e) as [d|]; [|auto]. destruct (_ <? _); [auto|]. cbv zeta. set (e1 := if _ && _ then _ else _).
  cbn [e_core e_set_np]. rewrite start_mem. unfold e1. destruct (_ && _); [|auto]. cbn [e_core e_set_psr reset_nodes e_set_pidx act e_set_core].
  intros G. pose proof (rec_reset C now (e_core e) id K) as E. unfold rec_at in E.
  change (aget id (k_mem (reset_members C now (e_core e))) = Some m) in G. rewrite E in G. destruct (recd e id) as [m0|]; [|discriminate]. destruct (kept C now (id, m0)); [exact G|discriminate].
Qed.
Lemma local_not_susp k : kinv k -> ~ is_susp (rec_at k LID).
Proof. intros K. destruct (ki_local _ _ K) as (m & -> & _ & _ & _ & _ & [[_ E]|[_ E]]); cbn; rewrite E; discriminate. Qed.
Lemma failing_susp e0 now e id : failing e0 now e -> ~ is_susp (recd e0 id) -> is_susp (recd e id) -> failed_probe e0 now id (recd e id).
Proof.
  intros F NS S. destruct (N.eq_dec id LID) as [->|NL]; [destruct (local_not_susp _ (fl_kinv _ _ _ F) S)|].
  destruct (fl_rec _ _ _ F id NL NS) as [E|X]; [rewrite E in S; contradiction|exact X].
Qed.
Lemma ok_susp now s d pl e id : kinv (e_core e) -> ~ is_susp (recd e id) -> is_susp (recd (probe_ok C s d pl now e) id) ->
  failed_probe e now id (recd (probe_ok C s d pl now e) id).
Proof.
  intros K NS. unfold probe_ok. destruct (aget s (e_probes e)) as [p|] eqn:G; [|contradiction]. destruct (N.leb_spec (p_fail p) now) as [L|].
  - apply failing_susp; [|exact NS]. apply failing_fail; [apply failing_refl, K|reflexivity|]. intros q Q. left. congruence.
  - cbv zeta. intros S. exfalso. destruct (p_kind p); [destruct d|]; apply NS; exact S.
Qed.
Lemma failed_probe_ext e0 e1 now id r : e_probes e1 = e_probes e0 -> recd e1 id = recd e0 id -> failed_probe e1 now id r -> failed_probe e0 now id r.
Proof. intros A B. unfold failed_probe. rewrite A, B. auto. Qed.
Lemma resolve_mem id e : k_mem (e_core (resolve_intent id e)) = k_mem (e_core e).
Proof.
  unfold resolve_intent. destruct (aget id (e_int e)) as [i|]; [|reflexivity]. cbv zeta. destruct (in_kind i); try reflexivity.
  unfold retire_reliable. destruct (aget _ (e_probes _)) as [p|]; [destruct (p_phase p)|]; reflexivity.
Qed.
Lemma became_suspect e o id : einv C e -> ~ is_susp (recd e id) -> is_susp (recd (fst (ep_step C e o)) id) ->
  accused o id \/
  exists now, failed_probe e now id (recd (fst (ep_step C e o)) id) /\
    (o = ETimeout now \/ (exists from s pl, o = EPacket from (MAck s pl) now) \/ exists s t, o = EStreamEv (SEAcked s now) t).
Proof.
  intros I NS S. pose proof (ei_core _ _ I) as K.
  assert (forall k, k_mem (e_core (fst (ep_step C e o))) = k_mem (fst (core_step C (e_core e) k)) -> exists inc from, id <> LID /\ origin C k (op_now k) (GSuspect inc id from)) as HC.
  { intros k E. rewrite E in S. apply (op_susp k (e_core e) id K NS S). }
  assert (k_mem (e_core (fst (ep_step C e o))) = k_mem (e_core e) -> False) as HN by (intros E; rewrite E in S; contradiction).
  assert (forall k, (forall inc from, ~ origin C k (op_now k) (GSuspect inc id from)) -> k_mem (e_core (fst (ep_step C e o))) = k_mem (fst (core_step C (e_core e) k)) -> False) as HX.
  { intros k NO E. destruct (HC k E) as (inc & from & _ & OR). exact (NO _ _ OR). }
  destruct o; try (destruct (HN eq_refl)).
  - cbn [ep_step fst] in *. unfold handle_packet in *. destruct (runs e); cbn [negb] in *; [|contradiction]. destruct m; try (destruct (HN eq_refl)).
    + destruct HN. unfold handle_ping. destruct (negb _); reflexivity.
    + destruct HN. unfold handle_indirect_ping. destruct (negb _); [reflexivity|]. destruct (_ <=? _); [reflexivity|]. destruct (existsb _ _); [reflexivity|].
      destruct (alloc_seq e) as [[q e1]|] eqn:A; [|reflexivity]. apply alloc_seq_spec in A as (-> & _). cbv zeta. destruct (negb _); reflexivity.
    + right. exists now. split; [|eauto 6]. revert S. unfold handle_ack. destruct (ack_get seq (e_acks e)) as [a|]; [|contradiction]. destruct (negb _); [contradiction|].
      match goal with |- is_susp (recd (if ?b then _ else _) id) -> _ => destruct b; [contradiction|] end. cbv zeta. set (e1 := e_set_acks _ e).
      assert (e_core e1 = e_core e /\ e_probes e1 = e_probes e) as [E1 P1] by (split; reflexivity). clearbody e1.
      assert (is_susp (recd e1 id) -> False) as NS1 by (rewrite E1; exact NS).
      assert (forall d, is_susp (recd (probe_ok C seq d payload now e1) id) -> failed_probe e now id (recd (probe_ok C seq d payload now e1) id)) as OK.
      { intros d S. apply (failed_probe_ext e e1); [exact P1|rewrite E1; reflexivity|]. apply ok_susp; [rewrite E1; exact K|exact NS1|exact S]. }
      destruct (a_kind a); [apply OK| |apply OK]. destruct (aget seq (e_fwds e1)); intros S; destruct (NS1 S).
    + destruct HN. unfold handle_nack. destruct (aget seq (e_probes e)) as [p|]; [|reflexivity]. destruct (_ <=? _); [reflexivity|]. destruct (p_phase p); [reflexivity|]. destruct (_ && _); reflexivity.
    + left. left. destruct (HC (KSuspect inc id0 from0 now) eq_refl) as (i & f & _ & _ & [= -> -> ->]). eauto 6.
    + destruct (HX (KAlive a now)); [|reflexivity]. intros i f [_ E]. discriminate.
    + destruct (HX (KDead inc id0 from0 now)); [|reflexivity]. intros i f [_ E]. discriminate.
  - destruct (runs e) eqn:R; [|destruct HN; cbn [ep_step fst]; unfold handle_timeout; rewrite R; reflexivity].
    destruct (timeout_parts now e I R) as (e4 & C4 & F2 & F4 & F5 & [F6 M6] & I1 & R1). cbv zeta in *.
    right. exists now. split; [|auto]. cbn [ep_step fst] in *. rewrite M6 in *.
    assert (recd (act C (KExpire now) e) id = recd e id) as E1 by (exact (expire_keeps now (e_core e) id K NS)).
    assert (kinv (e_core e4)) as K4 by (apply (F4 (proj1 (F2 K)))).
    assert (recd (fire_probe C now e4) id = recd (advance_fsm C now (act C (KExpire now) e)) id) as E2.
    { destruct (recd (fire_probe C now e4) id) as [m|] eqn:G; [|contradiction]. apply (probe_mem now e4 id m K4) in G. rewrite C4 in G. congruence. }
    rewrite E2 in *. apply (failed_probe_ext e (act C (KExpire now) e)); [reflexivity|exact E1|]. apply failing_susp; [apply fsm_failing; assumption|rewrite E1; exact NS|exact S].
  - cbn [ep_step fst] in *. unfold handle_stream_event in *. destruct ev; try (destruct (HN eq_refl)).
    + destruct (negb _); [destruct (HN eq_refl)|]. destruct (e_merge e _); [|destruct (HN eq_refl)]. left. right.
      destruct (HC (KMerge states now)) as (i & f & _ & OR); [destruct user; reflexivity|]. apply heard_suspect in OR. exact OR.
    + destruct (negb _); [destruct (HN eq_refl)|]. destruct (e_merge e _); [|destruct (HN eq_refl)]. left. right.
      destruct (HC (KMerge states now)) as (i & f & _ & OR); [destruct user; reflexivity|]. apply heard_suspect in OR. exact OR.
    + destruct (runs e); [|destruct (HN eq_refl)]. right. exists at_. split; [apply ok_susp; [exact K|exact NS|exact S]|eauto].
    + destruct HN. destruct (runs e); [|reflexivity]. unfold retire_reliable. destruct (aget _ (e_probes _)) as [p|]; [destruct (p_phase p)|]; reflexivity.
    + destruct HN. destruct (runs e); reflexivity.
  - left. right. destruct (HC (KMerge l now) eq_refl) as (i & f & _ & OR). apply heard_suspect in OR. exact OR.
  - destruct HN. cbn [ep_step]. unfold ping. destruct (negb (runs e)); [reflexivity|]. cbv zeta. destruct (alloc_seq e) as [[q e1]|] eqn:A; [|reflexivity].
    apply alloc_seq_spec in A as (-> & _). destruct (_ <? _); reflexivity.
  - destruct HN. apply start_mem.
  - destruct (HX (KReset now)); [|reflexivity]. intros i f E. destruct E.
  - destruct HN. cbn [ep_step]. unfold push_pull_direct. rewrite open_intent_eq. destruct (runs e); unfold announce; cbn beta iota; destruct (aget (e_sid e) _); reflexivity.
  - destruct HN. cbn [ep_step]. unfold push_pull_direct, dialled. rewrite open_intent_eq. destruct (runs e); reflexivity.
  - destruct HN. cbn [ep_step]. unfold reliable_ping_direct. rewrite open_intent_eq. destruct (runs e); unfold announce; cbn beta iota; destruct (aget (e_sid e) _); reflexivity.
  - destruct HN. cbn [ep_step]. unfold reliable_ping_direct, dialled. rewrite open_intent_eq. destruct (runs e); reflexivity.
  - destruct HN. cbn [ep_step]. unfold user_message_direct. destruct (runs e) eqn:R; [|reflexivity]. cbn [negb]. rewrite open_intent_eq, R. unfold announce; cbn beta iota; destruct (aget (e_sid e) _); reflexivity.
  - destruct HN. cbn [ep_step]. unfold user_message_direct, dialled. destruct (runs e) eqn:R; [|reflexivity]. cbn [negb]. rewrite open_intent_eq, R. reflexivity.
  - destruct HN. cbn [ep_step]. unfold dial_succeeded. destruct (aget id0 (e_int e)); [|reflexivity]. destruct (_ || _); [|reflexivity].
    cbn [fst]. apply resolve_mem.
  - destruct HN. apply resolve_mem.
  - destruct HN. cbn [ep_step]. unfold accept_stream. destruct (negb _); reflexivity.
  - destruct (runs e) eqn:R; [|destruct HN; cbn [ep_step fst]; unfold leave_with; rewrite R; reflexivity].
    destruct (HX (KLeave now)); [intros i f E; destruct E|]. cbn [ep_step fst]. rewrite (leave_with_core C now farewell e R). unfold leave_ops.
    destruct (live_addrs C _); reflexivity.
  - destruct (HX KPoll); [intros i f E; destruct E|reflexivity].
  - destruct (HX (KRequeue ev)); [intros i f E; destruct E|reflexivity].
  - destruct HN. cbn [ep_step]. unfold poll_transmit. destruct (e_tx e); [reflexivity|]. cbv zeta. cbn [e_flush e_set_tx]. destruct (e_flush e) as [r|]; [|reflexivity]. destruct (r <=? 1); reflexivity.
  - destruct HN. cbn [ep_step]. unfold set_ack_payload. destruct (negb _); [reflexivity|]. destruct (_ <? _); reflexivity.
  - destruct HN. cbn [ep_step]. unfold set_snapshot. destruct (negb _); [reflexivity|]. destruct (snapshot_fits _ _); reflexivity.
  - destruct HN. cbn [ep_step]. unfold queue_user. destruct (negb _); [reflexivity|]. destruct (_ <? _); reflexivity.
  - destruct HN. cbn [ep_step]. unfold send_user. destruct (negb _); [reflexivity|]. destruct (_ <? _); reflexivity.
  - destruct HN. cbn [ep_step]. unfold send_users, send_user. destruct (negb _); [reflexivity|]. destruct l as [|d [|d2 l]]; [reflexivity| |]; destruct (_ <? _); reflexivity.
  - destruct (HX (KMeta meta)); [intros i f E; destruct E|reflexivity].
  - destruct (HX (KAge id0 delta)); [intros i f E; destruct E|reflexivity].
  - destruct HN. cbn [ep_step fst]. unfold start_scheduling, stagger. destruct (negb _); [reflexivity|]. cbv zeta.
    repeat match goal with |- context [if ?b then _ else _] => destruct b end; reflexivity.
Qed.
(** ** The history of a probe: where it began, what it recorded, when it was sent *)
Lemma probe_history e0 os s p : einv C e0 -> e_probes e0 = [] -> aget s (e_probes (fst (ep_run C e0 os))) = Some p -> p_kind p = PKDetection ->
  exists os1 o os2, os = os1 ++ [o] ++ os2 /\ when o = Some (p_sent p) /\
    snapshot_of p (recd (fst (ep_run C e0 (os1 ++ [o]))) (ns_id (p_target p))) /\
    (p_disp p = true -> exists os3 os4, os2 = os3 ++ os4 /\ sent_for s (p_target p) (fst (ep_run C e0 (os1 ++ [o] ++ os3)))).
Proof.
  intros I0 P0. revert p. induction os as [|o os IH] using rev_ind; intros p G PK; [cbn in G; rewrite P0 in G; discriminate|].
  rewrite ep_run_snoc in G. cbn [fst] in G. pose proof (einv_run C os e0 I0) as I.
  destruct (probe_origin _ o s p I G PK) as [(q & GQ & E & D)|(W & SN & D)].
  - assert (p_target p = p_target q /\ p_kind p = p_kind q /\ p_sent p = p_sent q /\ p_inc p = p_inc q /\ p_gen p = p_gen q) as (ET & EK & ES & EI & EG) by (unfold snap in E; repeat split; congruence).
    destruct (IH q GQ) as (os1 & o1 & os2 & -> & W & SN & D2); [congruence|].
    exists os1, o1, (os2 ++ [o]). split; [rewrite !app_assoc; reflexivity|]. rewrite ES, ET. split; [exact W|]. split.
    + destruct SN as (m & A & B & X & Y & Z). exists m. rewrite ET, EI, EG. auto.
    + intros DP. destruct (D DP) as [DQ|SF].
      * destruct (D2 DQ) as (os3 & os4 & -> & SF). exists os3, (os4 ++ [o]). split; [rewrite app_assoc; reflexivity|exact SF].
      * exists (os2 ++ [o]), []. split; [rewrite app_nil_r; reflexivity|]. rewrite !app_assoc, ep_run_snoc, <- !app_assoc. exact SF.
  - exists os, o, []. split; [rewrite app_nil_r; reflexivity|]. split; [exact W|]. split; [rewrite ep_run_snoc; exact SN|].
    intros DP. exists [], []. split; [reflexivity|]. cbn [app]. rewrite ep_run_snoc. exact (D DP).
Qed.
End Probes.
