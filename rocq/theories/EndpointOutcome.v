(** What the application is told besides membership: user data, remote state and
    the outcome of its pings. *)
From Verif Require Import EndpointModel MapFacts BaseFacts CoreFacts CoreInv CoreSteps CoreTrans CoreHist EndpointSteps EndpointInv EndpointHist EndpointRuns EndpointFacts EndpointProbes EndpointUpkeep EndpointUser EndpointDetect EndpointEscalate.
Local Open Scope N_scope.

Section Outcome.
Variable C : cfg.
Notation LID := (c_id C).
Notation kinv := (kinv C).

(** ** Events of a kind [X] that is neither membership nor dialling *)
Section Kind.
Variable X : event -> bool.
Hypothesis XQ : forall ev, quiet ev = false -> X ev = false.
Hypothesis XD : forall a b c, X (EvDial a b c) = false.
(** the pending ones *)
Definition kind (e : ep) : list event := filter X (k_ev (e_core e)).
Definition mute (o : cop) : Prop := match o with KEmit ev | KRequeue ev => X ev = false | KPoll => False | _ => True end.
Lemma kind_emit ev k : filter X (k_ev (emit ev k)) = filter X (k_ev k) ++ (if X ev then [ev] else []).
Proof. rewrite emit_ev, filter_app. cbn [filter]. destruct (X ev); reflexivity. Qed.
Lemma filter_dials l : filter X (filter (fun e => negb (is_dial e)) l) = filter X l.
Proof.
  induction l as [|ev l IH]; [reflexivity|]. cbn [filter]. destruct (is_dial ev) eqn:D; cbn [negb].
  - rewrite IH. destruct ev; try discriminate D. rewrite XD. reflexivity.
  - cbn [filter]. rewrite IH. reflexivity.
Qed.
Lemma mute_step o now k k' : mute o -> kstep C o now k k' -> filter X (k_ev k') = filter X (k_ev k).
Proof.
  assert (forall id x k, k_ev (bcast C id x k) = k_ev k) as B by reflexivity.
  assert (forall s k0, filter X (k_ev (emit (EvLeft s) k0)) = filter X (k_ev k0)) as EL by (intros; rewrite kind_emit, XQ by reflexivity; apply app_nil_r).
  assert (forall s k0, filter X (k_ev (emit (EvJoined s) k0)) = filter X (k_ev k0)) as EJ by (intros; rewrite kind_emit, XQ by reflexivity; apply app_nil_r).
  assert (forall s k0, filter X (k_ev (emit (EvUpdated s) k0)) = filter X (k_ev k0)) as EU by (intros; rewrite kind_emit, XQ by reflexivity; apply app_nil_r).
  assert (forall s t k0, filter X (k_ev (emit (EvConflict s t) k0)) = filter X (k_ev k0)) as EC by (intros; rewrite kind_emit, XQ by reflexivity; apply app_nil_r).
  intros M S. destruct S; subst; try reflexivity; cbv zeta.
  - rewrite EL. reflexivity.
  - apply EC.
  - rewrite EJ. reflexivity.
  - destruct takeover, (dead_or_left _); rewrite ?EJ; try reflexivity; destruct (negb _); rewrite ?EU; reflexivity.
  - rewrite EU. reflexivity.
  - unfold reset_members. cbv zeta. cbn [k_ev k_set_mem k_set_draws]. generalize (map fst (filter (removable C now) (k_mem k))) as ids. intros ids.
    assert (k_ev (match ids with [] => k | _ => bumpv k end) = k_ev k) as E by (destruct ids; reflexivity). f_equal. revert E.
    generalize (match ids with [] => k | _ => bumpv k end) as k1. induction ids as [|i ids IH]; intros k1 E; [exact E|]. cbn [fold_left]. apply IH. exact E.
  - cbn [k_ev k_set_life]. rewrite EL. cbn. apply filter_dials.
  - cbn [mute] in M. cbn [k_ev k_set_ev]. rewrite filter_app. cbn [filter]. rewrite M. apply app_nil_r.
  - cbn [mute] in M. cbn [k_ev k_set_ev]. rewrite filter_app. cbn [filter]. rewrite M. apply app_nil_r.
  - destruct M.
Qed.
Lemma mute_op o k : kinv k -> mute o -> filter X (k_ev (fst (core_step C k o))) = filter X (k_ev k).
Proof. intros K M. pose proof (core_step_steps C k o K) as S. clear K. induction S as [k|k1 k2 k3 S _ IH]; [reflexivity|]. rewrite IH. eapply mute_step; eassumption. Qed.
Lemma mute_run os : forall k, kinv k -> Forall mute os -> filter X (k_ev (fst (core_run C k os))) = filter X (k_ev k).
Proof.
  induction os as [|o os IH]; intros k K F; [reflexivity|]. inversion F; subst. cbn [core_run].
  pose proof (mute_op o k K ltac:(assumption)) as E. pose proof (kinv_core_step C k o K) as K1.
  destruct (core_step C k o) as [k1 x1]. cbn [fst] in *. specialize (IH k1 K1 ltac:(assumption)). destruct (core_run C k1 os). cbn [fst] in *. congruence.
Qed.
Lemma does_kind (P : cop -> Prop) e e' : (forall o, P o -> mute o) -> kinv (e_core e) -> does C P e e' -> kind e' = kind e.
Proof. intros H K (os & E & F). unfold kind. rewrite E. apply mute_run; [exact K|]. eapply Forall_impl; [|exact F]. exact H. Qed.
Lemma ticks_kind (A : N -> Prop) u e e' : (forall s t, A s -> X (EvPingFailed s t) = false) -> kinv (e_core e) -> ticks C A u e e' -> kind e' = kind e.
Proof. intros H. apply does_kind. intros o T. destruct T; try exact Logic.I; cbn; auto. Qed.
Lemma act_kind o e : kinv (e_core e) -> mute o -> kind (act C o e) = kind e.
Proof. intros K M. unfold kind, act. cbn [e_core e_set_core]. apply mute_op; assumption. Qed.
Lemma act_emit ev e : X ev = true -> kind (act C (KEmit ev) e) = kind e ++ [ev].
Proof.
  intros H. assert (quiet ev = true) as Q by (destruct (quiet ev) eqn:E; [reflexivity|rewrite (XQ _ E) in H; discriminate]).
  unfold kind, act. cbn [e_core e_set_core]. change (fst (core_step C (e_core e) (KEmit ev))) with (if quiet ev then k_set_ev (k_ev (e_core e) ++ [ev]) (e_core e) else e_core e).
  rewrite Q. cbn [k_ev k_set_ev]. rewrite filter_app. cbn [filter]. rewrite H. reflexivity.
Qed.
Lemma same_kind e e' : e_core e' = e_core e -> kind e' = kind e.
Proof. intros E. unfold kind. rewrite E. reflexivity. Qed.
(** a probe or ping that ends *)
Lemma fail_kind s now e : kinv (e_core e) -> (forall t, X (EvPingFailed s t) = false) -> kind (probe_fail C s now e) = kind e.
Proof. intros K H. apply (ticks_kind (fun s' => s' = s) now); auto; [intros ? ? ->; apply H|apply ticks_fail; reflexivity]. Qed.
Lemma ok_kind s d pl now e : kinv (e_core e) -> (forall t, X (EvPingFailed s t) = false) -> (forall t r p, X (EvPingCompleted s t r p) = false) -> kind (probe_ok C s d pl now e) = kind e.
Proof.
  intros K HF HC. unfold probe_ok. destruct (aget s (e_probes e)) as [p|]; [|reflexivity]. destruct (_ <=? _); [apply fail_kind; assumption|]. cbv zeta.
  set (e1 := e_set_acks _ _). assert (kind e1 = kind e) as E by reflexivity. assert (kinv (e_core e1)) as K1 by exact K. clearbody e1. rewrite <- E.
  destruct (p_kind p); [destruct d|].
  - rewrite act_kind; [apply act_kind; [exact K1|exact Logic.I]|apply (kinv_act C), K1|apply HC].
  - apply act_kind; [exact K1|exact Logic.I].
  - apply act_kind; [exact K1|apply HC].
Qed.
Lemma ack_kind from s pl now e : kinv (e_core e) -> (forall t, X (EvPingFailed s t) = false) -> (forall t r p, X (EvPingCompleted s t r p) = false) -> kind (handle_ack C from s pl now e) = kind e.
Proof.
  intros K HF HC. unfold handle_ack. destruct (ack_get s (e_acks e)) as [a|]; [|reflexivity]. destruct (negb _); [reflexivity|].
  match goal with |- kind (if ?b then _ else _) = _ => destruct b; [reflexivity|] end. cbv zeta.
  set (e1 := e_set_acks _ e). assert (kind e1 = kind e) as E by reflexivity. assert (kinv (e_core e1)) as K1 by exact K. rewrite <- E.
  destruct (a_kind a); try (apply ok_kind; assumption).
  destruct (aget s (e_fwds e1)); reflexivity.
Qed.
Lemma farewell_core dead fw e : e_core (fst (farewell_payloads C dead fw e)) = e_core e.
Proof.
  unfold farewell_payloads. cbv zeta. match goal with |- context [let '(_, _) := ?Y in _] => destruct Y as [b r] end.
  assert (e_core (fst (drain_user C b e)) = e_core e) as E by (unfold drain_user; match goal with |- context [let '(_, _) := ?Y in _] => destruct Y as [[? ?] ?] end; reflexivity).
  destruct r; [destruct (_ =? 0); [reflexivity|exact E]|]. destruct (drain_user C b e). exact E.
Qed.
Lemma leave_kind now fw e : kinv (e_core e) -> X EvLeftCluster = false -> kind (leave_with C now fw e) = kind e.
Proof.
  intros K HL. unfold leave_with. destruct (negb _); [reflexivity|]. cbv zeta.
  set (e0 := e_set_iidx _ _). set (e1 := act C (KLeave now) e0).
  assert (kind e1 = kind e) as E1 by (unfold e1; rewrite act_kind; [reflexivity|exact K|exact Logic.I]).
  assert (kinv (e_core e1)) as K1 by (apply (kinv_act C); exact K).
  match goal with |- context [let '(_, _) := ?Y in _] => assert (e_core (fst Y) = e_core e1) as EY end.
  { destruct (live_addrs C e1); [reflexivity|]. rewrite farewell_core; reflexivity. }
  match goal with |- context [let '(_, _) := ?Y in _] => destruct Y as [e2 pl] end. cbn [fst] in EY. clearbody e1.
  destruct (live_addrs C e1); [|transitivity (kind e2); [reflexivity|rewrite (same_kind _ _ EY); exact E1]].
  match goal with |- kind (e_set_flush None ?x) = _ => change (kind (e_set_flush None x)) with (kind x) end. rewrite act_kind; [|cbn [e_core e_set_tx e_set_ub]; rewrite EY; exact K1|exact HL].
  rewrite <- E1. apply same_kind. cbn [e_core e_set_tx e_set_ub]. exact EY.
Qed.
(** every call that is none of the application's pings, answers to them, or data *)
Lemma ping_kind e nd now : kind (fst (ep_step C e (EPing nd now))) = kind e.
Proof. cbn [ep_step]. pose proof (ping_core C nd now e) as P. destruct (ping C nd now e) as [e' r]. apply same_kind, P. Qed.
Lemma poll_kind e : kind e = filter X (seen (snd (ep_step C e EPollEvent))) ++ kind (fst (ep_step C e EPollEvent)).
Proof.
  cbn [ep_step fst snd]. unfold kind, act. cbn [e_core e_set_core].
  change (core_step C (e_core e) KPoll) with (match k_ev (e_core e) with [] => (e_core e, []) | e0 :: r => (k_set_ev r (e_core e), [e0]) end).
  destruct (k_ev (e_core e)) as [|ev r] eqn:E; cbn; rewrite ?E; [reflexivity|]. destruct (X ev); reflexivity.
Qed.
Lemma requeue_kind e ev : kind (fst (ep_step C e (ERequeue ev))) = kind e ++ filter X [ev].
Proof.
  cbn [ep_step fst]. unfold kind, act. cbn [e_core e_set_core].
  change (fst (core_step C (e_core e) (KRequeue ev))) with (if negb (is_running (k_life (e_core e))) && is_dial ev then e_core e else k_set_ev (k_ev (e_core e) ++ [ev]) (e_core e)).
  destruct (is_dial ev) eqn:D.
  - assert (X ev = false) as F by (destruct ev; try discriminate D; apply XD). cbn [filter]. rewrite F, app_nil_r. destruct (negb _); [reflexivity|]. cbn [andb k_ev k_set_ev]. rewrite filter_app. cbn [filter]. rewrite F. apply app_nil_r.
  - rewrite Bool.andb_false_r. cbn [k_ev k_set_ev]. apply filter_app.
Qed.
Lemma quiet_op e o : kinv (e_core e) -> X EvLeftCluster = false ->
  match o with
  | EPollEvent | ERequeue _ | ETimeout _ | EPacket _ (MAck _ _) _ | EPacket _ (MUserData _) _ | EStreamEv (SEAcked _ _) _ | EStreamEv (SEUser _ _) _
  | EStreamEv (SEReply _ _ _ _ _) _ | EStreamEv (SERequest _ _ _ _ _) _ => False
  | _ => True
  end -> kind (fst (ep_step C e o)) = kind e.
Proof.
  intros K HL. destruct o; try contradiction; intros NO; cbn [ep_step fst]; try (apply act_kind; [exact K|exact Logic.I]); try reflexivity.
  - unfold handle_packet. destruct (negb _); [reflexivity|]. destruct m; try contradiction; try reflexivity; try (apply act_kind; [exact K|exact Logic.I]).
    + unfold handle_ping. destruct (negb _); reflexivity.
    + apply same_kind, indirect_core.
    + apply same_kind, nack_core.
  - destruct ev; try contradiction; cbn [handle_stream_event fst]; try reflexivity. destruct (runs e); [apply same_kind, retire_core|reflexivity].
  - apply (ping_kind e nd now).
  - apply same_kind, start_core.
  - unfold push_pull_direct. match goal with |- context [announce C (open_intent ?a ?b ?c ?d ?x)] => pose proof (ticks_announce C (fun _ => False) 0 a b c d x) as A; destruct (announce C _) end. apply (ticks_kind (fun _ => False) 0 _ _ ltac:(intros ? ? []) K A).
  - rewrite (surjective_pairing (dialled _)). cbn [fst]. unfold push_pull_direct. apply same_kind. rewrite open_intent_eq. destruct (runs e); reflexivity.
  - unfold reliable_ping_direct. match goal with |- context [announce C (open_intent ?a ?b ?c ?d ?x)] => pose proof (ticks_announce C (fun _ => False) 0 a b c d x) as A; destruct (announce C _) end. apply (ticks_kind (fun _ => False) 0 _ _ ltac:(intros ? ? []) K A).
  - unfold reliable_ping_direct. apply same_kind. rewrite open_intent_eq. destruct (runs e); reflexivity.
  - destruct (runs e) eqn:R; [|reflexivity]. unfold user_message_direct. rewrite R. cbn [negb].
    match goal with |- context [announce C (open_intent ?a ?b ?c ?d ?x)] => pose proof (ticks_announce C (fun _ => False) 0 a b c d x) as A; destruct (announce C _) end. apply (ticks_kind (fun _ => False) 0 _ _ ltac:(intros ? ? []) K A).
  - destruct (runs e) eqn:R; [|reflexivity]. unfold user_message_direct. rewrite R. cbn [negb]. apply same_kind. rewrite open_intent_eq. destruct (runs e); reflexivity.
  - unfold dial_succeeded. destruct (aget id (e_int e)) as [i|]; [|reflexivity]. destruct (_ || _); apply same_kind; [apply resolve_core|reflexivity].
  - apply same_kind, resolve_core.
  - unfold accept_stream. destruct (negb _); reflexivity.
  - apply leave_kind; assumption.
  - pose proof (poll_transmit_core C e) as P. destruct (poll_transmit C e) as [e' r]. cbn [fst] in *. unfold kind. rewrite P. apply mute_run; [exact K|].
    unfold poll_ops. destruct (e_tx e); [constructor|]. destruct (e_flush e); [|constructor]. destruct (_ <=? _); constructor; [exact HL|constructor].
  - unfold res, set_ack_payload. destruct (negb _); [reflexivity|]. destruct (_ <? _); reflexivity.
  - unfold res, set_snapshot. destruct (negb _); [reflexivity|]. destruct (snapshot_fits _ _); reflexivity.
  - unfold res, queue_user. destruct (negb _); [reflexivity|]. destruct (_ <? _); reflexivity.
  - unfold res, send_user. destruct (negb _); [reflexivity|]. destruct (_ <? _); reflexivity.
  - unfold res, send_users. destruct (negb _) eqn:R; [reflexivity|]. destruct l as [|d [|d' l]]; [reflexivity| |].
    + unfold send_user. rewrite R. destruct (_ <? _); reflexivity.
    + cbv zeta. destruct (_ <? _); reflexivity.
  - apply (does_kind (fun o => exists n, o = KDraws n) e); [intros ? [? ->]; exact Logic.I|exact K|]. unfold start_scheduling. destruct (negb _); [apply does_refl|]. cbv zeta.
    set (P := fun o : cop => exists n, o = KDraws n).
    assert (forall (b : bool) i (f : N -> ep -> ep) x, (forall n y, e_core (f n y) = e_core y) -> does C P x (if b then let '(s, x') := stagger C i x in f s x' else x)) as H.
    { intros b i f x F. destruct b; [|apply does_refl]. assert (does C P x (snd (stagger C i x))) as A by (unfold stagger; cbv zeta; destruct (_ =? 0); [apply does_refl|apply does_act; exists 1; reflexivity]).
      destruct (stagger C i x) as [n x']. cbn [snd] in A. eapply does_trans; [exact A|]. apply does_same, F. }
    eapply does_trans; [|apply H; reflexivity]. eapply does_trans; [|apply H; reflexivity]. apply H. reflexivity.
Qed.
End Kind.

(** ** User data and remote state *)
Definition is_data (ev : event) : bool := match ev with EvUserPacket _ _ _ | EvRemoteState _ _ _ _ => true | _ => false end.
(** what a call brings for the application *)
Definition brings (e : ep) (o : eop) : list event :=
  match o with
  | EPacket from (MUserData d) _ => if runs e then [EvUserPacket from d Unreliable] else []
  | EStreamEv (SEUser peer d) _ => if runs e then [EvUserPacket peer d Reliable] else []
  | EStreamEv (SEReply peer states user join sid) _ | EStreamEv (SERequest peer states user join sid) _ =>
    if runs e && e_merge e (map pns_ns states) then match user with [] => [] | _ => [EvRemoteState peer user join sid] end else []
  | ERequeue ev => if is_data ev then [ev] else []
  | _ => []
  end.
Fixpoint brought (e : ep) (os : list eop) : list event :=
  match os with [] => [] | o :: r => brings e o ++ brought (fst (ep_step C e o)) r end.
Lemma data_quiet ev : quiet ev = false -> is_data ev = false.
Proof. destruct ev; try reflexivity; discriminate. Qed.
Lemma data_merge peer st us j sid now e : kinv (e_core e) ->
  kind is_data (merge_in C peer st us j sid now e) = kind is_data e ++ match us with [] => [] | _ => [EvRemoteState peer us j sid] end.
Proof.
  intros K. unfold merge_in. cbv zeta. pose proof (act_kind is_data data_quiet (fun _ _ _ => eq_refl) (KMerge st now) e K Logic.I) as E.
  destruct us; [rewrite app_nil_r; exact E|]. rewrite act_emit; [rewrite E; reflexivity|exact data_quiet|reflexivity].
Qed.
Lemma data_step e o : einv C e -> filter is_data (seen (snd (ep_step C e o))) ++ kind is_data (fst (ep_step C e o)) = kind is_data e ++ brings e o.
Proof.
  intros I. pose proof (ei_core _ _ I) as K. pose proof data_quiet as Q. assert (forall a b c, is_data (EvDial a b c) = false) as D by reflexivity.
  destruct (match o with EPollEvent => true | _ => false end) eqn:PO.
  { destruct o; try discriminate. rewrite <- (poll_kind is_data e). symmetry. apply app_nil_r. }
  rewrite (seen_none C e o) by (intros ->; discriminate). cbn [filter app].
  destruct o; try discriminate PO;
    try (cbn [brings]; rewrite app_nil_r; apply quiet_op; auto; fail).
  - cbn [brings ep_step fst]. destruct m; try (rewrite app_nil_r; match goal with |- kind is_data (handle_packet C from ?m now e) = _ => apply (quiet_op is_data Q D e (EPacket from m now)); auto end; fail).
    + rewrite app_nil_r. unfold handle_packet. destruct (negb _); [reflexivity|]. apply ack_kind; auto.
    + unfold handle_packet. destruct (runs e); cbn [negb]; [|rewrite app_nil_r; reflexivity]. apply act_emit; auto.
  - cbn [brings ep_step fst]. rewrite app_nil_r. eapply (ticks_kind is_data Q D (fun _ => True)); [reflexivity|exact K|apply ticks_timeout; auto].
  - destruct ev; cbn [brings ep_step fst handle_stream_event].
    + destruct (runs e); cbn [negb andb fst]; [|rewrite app_nil_r; reflexivity]. destruct (e_merge e _); cbn [fst]; [|rewrite app_nil_r; reflexivity]. apply data_merge, K.
    + destruct (runs e); cbn [negb andb fst]; [|rewrite app_nil_r; reflexivity]. destruct (e_merge e _); cbn [fst]; [|rewrite app_nil_r; reflexivity]. apply data_merge, K.
    + rewrite app_nil_r. destruct (runs e); [|reflexivity]. apply ok_kind; auto.
    + rewrite app_nil_r. destruct (runs e); [|reflexivity]. apply same_kind, retire_core.
    + destruct (runs e); [|rewrite app_nil_r; reflexivity]. apply act_emit; auto.
    + rewrite app_nil_r. reflexivity.
  - rewrite (requeue_kind is_data D e ev). cbn [brings filter]. destruct (is_data ev); reflexivity.
Qed.
Lemma data_run os : forall e, einv C e -> filter is_data (seen (snd (ep_run C e os))) ++ kind is_data (fst (ep_run C e os)) = kind is_data e ++ brought e os.
Proof.
  induction os as [|o os IH]; intros e I; [symmetry; apply app_nil_r|]. cbn [ep_run brought]. pose proof (data_step e o I) as S. pose proof (einv_op C e o I) as I1.
  destruct (ep_step C e o) as [e1 x]. cbn [fst snd] in *. specialize (IH e1 I1). destruct (ep_run C e1 os) as [e2 y]. cbn [fst snd] in *.
  rewrite seen_app, filter_app, <- app_assoc, IH, app_assoc, S, <- app_assoc. reflexivity.
Qed.

(** ** Pings of the application *)
Definition pings (e : ep) : Prop := forall s p, aget s (e_probes e) = Some p -> p_kind p = PKPing -> p_fail p = tadd (p_sent p) (c_probe_timeout C) /\ p_disp p = true.
Lemma pings_step e ks cs e' : einv C e -> estep C e ks cs e' -> pings e -> pings e'.
Proof.
  intros I S H. assert (e_probes e' = e_probes e -> pings e') as K by (intros E s p; rewrite E; apply H).
  destruct S; try (apply K; reflexivity).
  - intros s0 p0. rewrite probe_fail_probes. destruct (N.eqb_spec s0 s); [discriminate|apply H].
  - match goal with X : same_rest _ _ |- _ => destruct X as (_ & E & _) end. apply K, E.
  - destruct (gossip_rest C e) as (E & _). destruct (gossip_batch C e) as [g ms]. apply K, E.
  - intros s0 p0. cbn [e_probes e_set_acks e_set_probes]. rewrite aget_aset. destruct (N.eqb_spec s0 s); [|apply H]. intros [= <-] PK.
    match goal with X : born _ _ _ _ _ _ |- _ => unfold born in X; rewrite PK in X; destruct X as (_ & t & i & g & ->) end. split; reflexivity.
  - intros s0 p0. cbn [e_probes e_set_probes]. rewrite aget_aset. destruct (N.eqb_spec s0 s); [|apply H]. intros [= <-] PK.
    match goal with X : pupd _ _ |- _ => rename X into U end. pose proof (pupd_kind _ _ U) as (A & B & _ & _ & _ & F). rewrite A in PK. destruct (H s p ltac:(assumption) PK) as [Y1 Y2].
    pose proof (ei_shape _ _ I s p ltac:(assumption)) as SH. unfold pshape in SH. rewrite B, F. split; [exact Y1|]. destruct U; cbn; try congruence.
  - intros s0 p0. cbn [e_probes e_set_acks e_set_probes]. rewrite aget_adel. destruct (N.eqb_spec s0 s); [discriminate|apply H].
  - intros s0 p0. cbn [e_probes e_set_probes e_set_fwds e_set_int]. rewrite (perm_aget (e_probes e) (shuffle f (e_probes e)) s0 (shuffle_perm _ _) (ei_pnd _ _ I)). apply H.
  - pose proof (leave_rest C now fw e H0) as LR. cbv zeta in LR. apply K, LR.
  - pose proof (poll_rest C e) as PR. cbv zeta in PR. apply K, PR.
Qed.
Lemma pings_op e o : einv C e -> pings e -> pings (fst (ep_step C e o)).
Proof.
  intros I H. destruct (step_chain C e o I) as (ks & cr & S & _). induction S as [|? ? ? ? ? ? ? S _ IH]; [exact H|].
  apply IH; [eapply einv_step; eassumption|eapply pings_step; eassumption].
Qed.
Lemma pings_reach e : reach C e -> pings e.
Proof.
  intros (t0 & e0 & os & N & ->). pose proof (einv_new C t0 e0 N) as I. assert (pings e0) as P.
  { unfold ep_new in N. destruct (cfg_ok C); [|discriminate]. apply Some_inj in N as <-. intros s p. unfold refresh_cache. destruct (_ && _); cbn; discriminate. }
  revert e0 N I P. intros e0 _. revert e0. induction os as [|o os IH]; intros e0 I P; [exact P|]. cbn [ep_run].
  pose proof (pings_op e0 o I P) as P1. pose proof (einv_op C e0 o I) as I1. destruct (ep_step C e0 o) as [e1 x]. cbn [fst] in *. specialize (IH e1 I1 P1). destruct (ep_run C e1 os). exact IH.
Qed.

Section Ping.
Variable q : N.
Definition is_outcome (ev : event) : bool := match ev with EvPingCompleted s _ _ _ | EvPingFailed s _ => s =? q | _ => false end.
Lemma outcome_quiet ev : quiet ev = false -> is_outcome ev = false.
Proof. destruct ev; try reflexivity; discriminate. Qed.
Notation outcomes := (kind is_outcome).
(** nothing but its answer and the timer touches it *)
Lemma stays_op e o : einv C e ->
  match o with ETimeout _ => False | EPacket _ (MAck s _) _ | EStreamEv (SEAcked s _) _ => s <> q | _ => True end -> stays q e (fst (ep_step C e o)).
Proof.
  intros I NO. destruct o; try contradiction; try (apply stays_same; reflexivity); cbn [ep_step fst] in *.
  - (* packet *) unfold handle_packet in *. destruct (negb _); [apply stays_refl|]. destruct m; try (apply stays_same; reflexivity).
    + apply stays_same. unfold handle_ping. destruct (negb _); reflexivity.
    + apply stays_same. unfold handle_indirect_ping. destruct (negb _); [reflexivity|]. destruct (_ <=? _); [reflexivity|]. destruct (existsb _ _); [reflexivity|].
      destruct (alloc_seq e) as [[s' e']|] eqn:A; [|reflexivity]. apply alloc_seq_spec in A as (-> & _). cbv zeta. destruct (negb _); reflexivity.
    + (* ack *) apply stays_same. unfold handle_ack. destruct (ack_get seq (e_acks e)) as [ae|]; [|reflexivity]. destruct (negb _); [reflexivity|].
      match goal with |- context [if ?c then _ else _] => destruct c; [reflexivity|] end. cbv zeta. destruct (a_kind ae); try (rewrite probe_ok_probes; destruct (N.eqb_spec q seq); [congruence|reflexivity]).
      destruct (aget seq _); reflexivity.
    + apply stays_nack.
  - (* streams *) unfold handle_stream_event in *. destruct ev; destruct (runs e) eqn:R; cbn [negb fst] in *; try (apply stays_same; reflexivity); try (destruct (e_merge e _); cbn [fst] in *).
    all: try (apply stays_same; unfold merge_in; destruct user; reflexivity); try apply stays_refl.
    + apply stays_same. rewrite probe_ok_probes. destruct (N.eqb_spec q seq); [congruence|reflexivity].
    + apply stays_retire.
  - pose proof (stays_ping C q nd now e) as P. destruct (ping C nd now e). exact P.
  - apply stays_start.
  - apply stays_same. unfold push_pull_direct. match goal with |- context [announce C (open_intent ?a ?b ?c ?d ?x)] => pose proof (announce_probes C a b c d x) as A; destruct (announce C (open_intent a b c d x)) end. cbn [fst snd] in *. rewrite A. reflexivity.
  - apply stays_same. unfold push_pull_direct. rewrite open_intent_eq. destruct (runs _); reflexivity.
  - apply stays_same. unfold reliable_ping_direct. match goal with |- context [announce C (open_intent ?a ?b ?c ?d ?x)] => pose proof (announce_probes C a b c d x) as A; destruct (announce C (open_intent a b c d x)) end. cbn [fst snd] in *. rewrite A. reflexivity.
  - apply stays_same. unfold reliable_ping_direct. rewrite open_intent_eq. destruct (runs _); reflexivity.
  - apply stays_same. destruct (runs e) eqn:R; [|reflexivity]. unfold user_message_direct. rewrite R. cbn [negb]. match goal with |- context [announce C (open_intent ?a ?b ?c ?d ?x)] => pose proof (announce_probes C a b c d x) as A; destruct (announce C (open_intent a b c d x)) end. cbn [fst snd] in *. rewrite A. reflexivity.
  - apply stays_same. destruct (runs e) eqn:R; [|reflexivity]. unfold user_message_direct. rewrite R. cbn [negb]. rewrite open_intent_eq, R. reflexivity.
  - unfold dial_succeeded. destruct (aget id (e_int e)); [|apply stays_same; reflexivity]. destruct (_ || _); [apply stays_resolve|apply stays_same; reflexivity].
  - apply stays_resolve.
  - apply stays_same. unfold accept_stream. destruct (negb _); reflexivity.
  - destruct (runs e) eqn:R; [|unfold leave_with; rewrite R; apply stays_refl]. pose proof (leave_rest C now farewell e R) as LR. cbv zeta in LR. apply stays_same. rewrite (proj1 LR). reflexivity.
  - apply stays_same. unfold poll_transmit. destruct (e_tx e); [reflexivity|]. cbn. destruct (e_flush e); [destruct (_ <=? _)|]; reflexivity.
  - apply stays_same. unfold res, set_ack_payload. destruct (negb _); [reflexivity|]. destruct (_ <? _); reflexivity.
  - apply stays_same. unfold res, set_snapshot. destruct (negb _); [reflexivity|]. destruct (snapshot_fits _ _); reflexivity.
  - apply stays_same. unfold res, queue_user. destruct (negb _); [reflexivity|]. destruct (_ <? _); reflexivity.
  - apply stays_same. unfold res, send_user. destruct (negb _); [reflexivity|]. destruct (_ <? _); reflexivity.
  - apply stays_same. unfold res, send_users. destruct (runs e) eqn:R; [|reflexivity]. cbn [negb]. destruct l as [|d [|d' l]]; [reflexivity| |]; unfold send_user; rewrite ?R; cbn [negb]; cbv zeta; destruct (_ <? _); reflexivity.
  - apply stays_same. unfold start_scheduling. destruct (negb _); [reflexivity|]. cbv zeta. unfold stagger.
    destruct (0 <? c_probe_interval C), (_ && _), (0 <? c_pp_interval C); cbv zeta; repeat (destruct (_ =? 0)); reflexivity.
  - apply stays_same. apply perm_aget; [apply shuffle_perm|apply (ei_pnd _ _ I)].
Qed.
(** what stays of a ping is the ping *)
Lemma ping_stays e e' p : einv C e -> einv C e' -> pings e -> pings e' -> aget q (e_probes e) = Some p -> p_kind p = PKPing -> stays q e e' -> aget q (e_probes e') = Some p.
Proof.
  intros I I' P P' G K S. destruct (S p G) as (p' & G' & E & _). rewrite G'. f_equal.
  unfold snap in E. injection E as E1 E2 E3 E4 E5 E6.
  pose proof (proj2 (P _ _ G K)) as D. pose proof (proj2 (P' _ _ G' ltac:(congruence))) as D'.
  pose proof (ei_shape _ _ I _ _ G) as SH. pose proof (ei_shape _ _ I' _ _ G') as SH'. unfold pshape in SH, SH'.
  destruct p as [t i g st k d f ph], p' as [t' i' g' st' k' d' f' ph']. cbn in *. subst.
  destruct ph; [|destruct SH; congruence]. destruct ph'; [|destruct SH'; congruence]. congruence.
Qed.
(** how a ping may end *)
Definition ends (p : probe) (o : eop) (ev : event) : Prop :=
  (exists t pl, ev = EvPingCompleted q (p_target p) (tsub t (p_sent p)) pl /\ t < p_fail p /\
     (o = EPacket (ns_addr (p_target p)) (MAck q pl) t \/ pl = [] /\ exists now, o = EStreamEv (SEAcked q t) now)) \/
  (ev = EvPingFailed q (p_target p) /\ exists t, p_fail p <= t /\
     (o = ETimeout t \/ (exists pl, o = EPacket (ns_addr (p_target p)) (MAck q pl) t) \/ exists now, o = EStreamEv (SEAcked q t) now)).
Definition resolves (e e' : ep) (p : probe) (o : eop) : Prop :=
  exists ev, outcomes e' = outcomes e ++ [ev] /\ ends p o ev /\ forall p', aget q (e_probes e') = Some p' -> p_kind p' = PKDetection.
Lemma fail_ping now e p : aget q (e_probes e) = Some p -> p_kind p = PKPing -> outcomes (probe_fail C q now e) = outcomes e ++ [EvPingFailed q (p_target p)].
Proof.
  intros G K. unfold probe_fail. rewrite G. cbv zeta. set (e1 := e_set_acks _ _).
  set (e2 := match p_phase p with PhIndirect _ _ _ (Some rid) _ => remove_intent rid e1 | _ => e1 end).
  assert (outcomes e2 = outcomes e) as E by (unfold e2; destruct (p_phase p) as [|? ? ? [?|] ?]; reflexivity). clearbody e2. rewrite K, <- E.
  apply act_emit; [exact outcome_quiet|apply N.eqb_refl].
Qed.
Lemma ok_ping d pl now e p o : aget q (e_probes e) = Some p -> p_kind p = PKPing -> kinv (e_core e) ->
  (o = EPacket (ns_addr (p_target p)) (MAck q pl) now \/ pl = [] /\ exists u, o = EStreamEv (SEAcked q now) u) ->
  resolves e (probe_ok C q d pl now e) p o.
Proof.
  intros G K V HO. unfold resolves. assert (forall p', aget q (e_probes (probe_ok C q d pl now e)) = Some p' -> p_kind p' = PKDetection) as N0 by (intros p'; rewrite probe_ok_probes, N.eqb_refl; discriminate).
  unfold probe_ok in *. rewrite G in N0 |- *. destruct (N.leb_spec (p_fail p) now) as [L|L].
  - exists (EvPingFailed q (p_target p)). split; [exact (fail_ping now e p G K)|]. split; [|exact N0]. right. split; [reflexivity|]. exists now. split; [exact L|]. destruct HO as [->|[_ [u ->]]]; eauto.
  - cbv zeta in *. rewrite K in N0 |- *. exists (EvPingCompleted q (p_target p) (tsub now (p_sent p)) pl). split; [set (e1 := e_set_acks _ _); change (outcomes e) with (outcomes e1); apply (act_emit is_outcome outcome_quiet), N.eqb_refl|]. split; [|exact N0]. left. exists now, pl. auto.
Qed.
Notation others := (fun s : N => s <> q).
Lemma others_quiet : forall s t, s <> q -> is_outcome (EvPingFailed s t) = false.
Proof. intros s t NE. cbn. apply N.eqb_neq, NE. Qed.
Lemma fans_mute now l : forall e, ~ In q l -> ticks C others now e (fold_left (fan_out C now) l e).
Proof.
  induction l as [|s l IH]; intros e NI; [apply ticks_refl|]. cbn [fold_left]. eapply ticks_trans; [apply ticks_fan; intros EQ; apply NI; left; exact EQ|].
  apply IH. intros X. apply NI. right. exact X.
Qed.
Lemma fails_mute now l : forall e, ~ In q l -> ticks C others now e (fold_left (fun e s => probe_fail C s now e) l e).
Proof.
  induction l as [|s l IH]; intros e NI; [apply ticks_refl|]. cbn [fold_left]. eapply ticks_trans; [apply ticks_fail; intros EQ; apply NI; left; exact EQ|].
  apply IH. intros X. apply NI. right. exact X.
Qed.
Lemma mute_kind u e e' : kinv (e_core e) -> ticks C others u e e' -> outcomes e' = outcomes e.
Proof. intros V T. exact (ticks_kind is_outcome outcome_quiet (fun _ _ _ => eq_refl) others u e e' others_quiet V T). Qed.
Lemma ticks_kinv (A : N -> Prop) u e e' : ticks C A u e e' -> kinv (e_core e) -> kinv (e_core e').
Proof. intros T. apply (acts_kinv C u). apply (ticks_acts C A), T. Qed.
Lemma timeout_ping now e p : einv C e -> runs e = true -> pings e -> aget q (e_probes e) = Some p -> p_kind p = PKPing ->
  (now < p_fail p /\ stays q e (handle_timeout C now e) /\ outcomes (handle_timeout C now e) = outcomes e) \/
  (p_fail p <= now /\ resolves e (handle_timeout C now e) p (ETimeout now)).
Proof.
  intros I R PG G PK. destruct (PG _ _ G PK) as [PF _].
  destruct (timeout_parts C now e I R) as (e4 & C4 & F02 & F24 & PB & [CA CM] & I1 & R1). cbv zeta in *.
  pose proof (ticks_expire C others now e) as TX. pose proof (ticks_rest C others now e R) as TR. cbv zeta in TR. pose proof (stays_rest C q now e R) as SR.
  set (e1 := act C (KExpire now) e) in *. assert (e_probes e1 = e_probes e) as P1 by reflexivity. clearbody e1. pose proof (ei_core _ _ I) as V. pose proof (ei_core _ _ I1) as V1.
  assert (outcomes e1 = outcomes e) as O1 by (eapply mute_kind; eassumption).
  set (e2 := advance_fsm C now e1) in *. set (e' := handle_timeout C now e) in *.
  destruct (F02 V) as (V2 & _ & _). destruct (F24 V2) as (V4 & _ & FP24). destruct (PB V4) as (V5 & _ & PB45). destruct (CA V5) as (V6 & _ & FP56).
  assert (outcomes e' = outcomes e2) as O3 by (eapply mute_kind; eassumption).
  assert (fsm_due C now p = if p_fail p <=? now then FsmFail else FsmWait) as FD.
  { unfold fsm_due, p_direct_deadline. rewrite <- PF. destruct (_ <=? _); [reflexivity|]. destruct (p_phase p); reflexivity. }
  rewrite <- P1 in G.
  assert (outcomes e2 = outcomes e1 /\ aget q (e_probes e2) = Some p /\ now < p_fail p \/ outcomes e2 = outcomes e1 ++ [EvPingFailed q (p_target p)] /\ aget q (e_probes e2) = None /\ p_fail p <= now) as X.
  { unfold e2, advance_fsm. cbv zeta. set (ff := fun x : N * probe => match fsm_due C now (snd x) with FsmFan => true | _ => false end). set (lf := map fst (filter ff _)).
    set (gg := fun x : N * probe => match fsm_due C now (snd x) with FsmFail => true | _ => false end). set (lg := map fst (filter gg _)).
    assert (~ In q lf) as NF by (intros X; apply (in_keys_filter ff _ q p (ei_pnd _ _ I1) G) in X; unfold ff in X; cbn [snd] in X; rewrite FD in X; destruct (_ <=? _); discriminate).
    assert (In q lg <-> p_fail p <= now) as NG by (unfold lg; rewrite (in_keys_filter gg _ q p (ei_pnd _ _ I1) G); unfold gg; cbn [snd]; rewrite FD; destruct (N.leb_spec (p_fail p) now); split; (lia || discriminate || reflexivity)).
    assert (NoDup lg) as ND by (apply (nodup_filter gg), (ei_pnd _ _ I1)). clearbody lf lg. clear ff gg.
    pose proof (fans_mute now lf e1 NF) as T1. destruct (fans_other C q now lf e1 R1 NF) as (A1 & _ & _ & _ & _). cbv zeta in A1. set (ef := fold_left _ lf e1) in *. clearbody ef.
    rewrite G in A1. pose proof (mute_kind _ _ _ V1 T1) as OF. pose proof (ticks_kinv _ _ _ _ T1 V1) as VF.
    destruct (N.le_gt_cases (p_fail p) now) as [L|L].
    - right. destruct NG as [_ NG]. specialize (NG L). apply in_split in NG as (a & b & ->). apply NoDup_remove in ND as [_ NI].
      rewrite fold_left_app. cbn [fold_left]. assert (~ In q a) as NA by (intros X; apply NI, in_or_app; auto). assert (~ In q b) as NB by (intros X; apply NI, in_or_app; auto).
      destruct (fails_other C q now a ef NA) as (B1 & _ & _). pose proof (fails_mute now a ef NA) as T2. cbv zeta in *. set (eg := fold_left _ a ef) in *. clearbody eg. rewrite A1 in B1.
      pose proof (mute_kind _ _ _ VF T2) as OG. pose proof (ticks_kinv _ _ _ _ T2 VF) as VG.
      pose proof (fail_ping now eg p B1 PK) as OH. assert (kinv (e_core (probe_fail C q now eg))) as VH by (apply (acts_kinv C now eg); [apply acts_fail|exact VG]).
      pose proof (probe_fail_probes C q now eg q) as PH. rewrite N.eqb_refl in PH. set (eh := probe_fail C q now eg) in *. clearbody eh.
      destruct (fails_other C q now b eh NB) as (D1 & _ & _). pose proof (fails_mute now b eh NB) as T3. cbv zeta in *. pose proof (mute_kind _ _ _ VH T3) as OI.
      split; [rewrite OI, OH, OG, OF; reflexivity|]. split; [rewrite D1; exact PH|exact L].
    - left. assert (~ In q lg) as NI by (intros X; apply NG in X; lia). destruct (fails_other C q now lg ef NI) as (B1 & _ & _). pose proof (fails_mute now lg ef NI) as T2. cbv zeta in *.
      split; [rewrite (mute_kind _ _ _ VF T2); exact OF|]. split; [rewrite B1; exact A1|exact L]. }
  destruct X as [(X1 & X2 & X3)|(X1 & X2 & X3)]; [left|right]; (split; [exact X3|]).
  - split; [|congruence]. eapply stays_trans; [|exact SR]. apply stays_same. rewrite X2, <- P1. symmetry. exact G.
  - exists (EvPingFailed q (p_target p)). split; [congruence|]. split; [right; split; [reflexivity|exists now; auto]|].
    intros p' Gp. destruct (FP56 _ _ Gp) as (p5 & G5 & S5 & _).
    destruct (PB45 _ _ G5) as [(p4 & G4 & _)|(KD & _)]; [destruct (FP24 _ _ G4) as (p2 & G2 & _); congruence|]. unfold snap in S5. congruence.
Qed.
Lemma ping_step e o p : einv C e -> pings e -> aget q (e_probes e) = Some p -> p_kind p = PKPing -> o <> EPollEvent -> (forall ev, o <> ERequeue ev) ->
  let e' := fst (ep_step C e o) in
  (aget q (e_probes e') = Some p /\ outcomes e' = outcomes e) \/ resolves e e' p o.
Proof.
  intros I PG G PK NP NR. cbv zeta. pose proof (ei_core _ _ I) as V.
  pose proof (einv_op C e o I) as I'. pose proof (pings_op e o I PG) as PG'.
  assert (stays q e (fst (ep_step C e o)) -> aget q (e_probes (fst (ep_step C e o))) = Some p) as ST by (intros S; exact (ping_stays e _ p I I' PG PG' G PK S)).
  assert (forall a b c, is_outcome (EvDial a b c) = false) as DQ by reflexivity. pose proof outcome_quiet as Q.
  destruct (match o with ETimeout _ | EPacket _ (MAck _ _) _ | EPacket _ (MUserData _) _ | EStreamEv (SEAcked _ _) _ | EStreamEv (SEUser _ _) _
    | EStreamEv (SEReply _ _ _ _ _) _ | EStreamEv (SERequest _ _ _ _ _) _ => true | _ => false end) eqn:SP.
  2: { left. split.
       - apply ST, stays_op; [exact I|]. destruct o; try exact Logic.I; try discriminate SP; [destruct m; try exact Logic.I; discriminate SP|destruct ev; try exact Logic.I; discriminate SP].
       - apply (quiet_op is_outcome Q DQ); [exact V|reflexivity|]. destruct o; try exact Logic.I; try (exfalso; apply NP; reflexivity); try (exfalso; eapply NR; reflexivity); try discriminate SP; [destruct m; try exact Logic.I; discriminate SP|destruct ev; try exact Logic.I; discriminate SP]. }
  destruct o; try discriminate SP; [destruct m; try discriminate SP| |destruct ev; try discriminate SP].
  - (* ack *) cbn [ep_step fst] in *. unfold handle_packet in *. destruct (runs e) eqn:R; cbn [negb] in *; [|left; auto].
    destruct (N.eq_dec seq q) as [->|NE].
    + destruct (N.eq_dec (ns_addr (p_target p)) from) as [EF|NF].
      * right. rewrite (ack_accepted C e from q payload now p I G (or_introl (eq_sym EF))) in *. apply ok_ping; auto. left. congruence.
      * left. rewrite (ack_ignored C e from q payload now I); [auto| |].
        -- intros p' G' [M|(x & ps & nb & r & d & PH & _)]; assert (p' = p) by congruence; subst p'; [congruence|]. pose proof (ei_shape _ _ I _ _ G) as SH. unfold pshape in SH. rewrite PH in SH. destruct SH; congruence.
        -- intros f GF. exfalso. pose proof (ei_reg _ _ I q) as RG. unfold registered in RG. rewrite G, GF in RG. destruct (aget q (e_acks e)) as [ae|]; [|destruct RG; discriminate].
           destruct RG as (_ & _ & RG). destruct (a_kind ae); destruct RG as [? ?]; discriminate.
    + left. split; [apply ST|apply ack_kind; auto; intros; apply N.eqb_neq; exact NE].
      pose proof (stays_op e (EPacket from (MAck seq payload) now) I NE) as S. cbn [ep_step fst] in S. unfold handle_packet in S. rewrite R in S. exact S.
  - (* user data *) left. split; [apply ST, stays_op; [exact I|exact Logic.I]|]. cbn [ep_step fst]. unfold handle_packet. destruct (negb _); [reflexivity|]. apply act_kind; auto. reflexivity.
  - (* timer *) cbn [ep_step fst] in *. destruct (runs e) eqn:R; [|left; unfold handle_timeout; rewrite R; auto].
    destruct (timeout_ping now e p I R PG G PK) as [(_ & A & B)|(_ & A)]; [left; auto|right; exact A].
  - left. split; [apply ST, stays_op; [exact I|exact Logic.I]|]. cbn [ep_step fst handle_stream_event]. destruct (runs e); cbn [negb fst]; [|reflexivity]. destruct (e_merge e _); cbn [fst]; [|reflexivity].
    unfold merge_in. cbv zeta. destruct user; [apply act_kind; auto; exact Logic.I|]. rewrite act_kind; auto; [apply act_kind; auto; exact Logic.I|apply (kinv_act C), V|reflexivity].
  - left. split; [apply ST, stays_op; [exact I|exact Logic.I]|]. cbn [ep_step fst handle_stream_event]. destruct (runs e); cbn [negb fst]; [|reflexivity]. destruct (e_merge e _); cbn [fst]; [|reflexivity].
    unfold merge_in. cbv zeta. destruct user; [apply act_kind; auto; exact Logic.I|]. rewrite act_kind; auto; [apply act_kind; auto; exact Logic.I|apply (kinv_act C), V|reflexivity].
  - (* answered over a stream *) cbn [ep_step fst handle_stream_event] in *. destruct (runs e) eqn:R; [|left; auto]. destruct (N.eq_dec seq q) as [->|NE].
    + right. apply ok_ping; eauto.
    + left. split; [apply ST|apply ok_kind; auto; intros; apply N.eqb_neq; exact NE].
      pose proof (stays_op e (EStreamEv (SEAcked seq at_) now) I NE) as S. cbn [ep_step fst handle_stream_event] in S. rewrite R in S. exact S.
  - left. split; [apply ST, stays_op; [exact I|exact Logic.I]|]. cbn [ep_step fst handle_stream_event]. destruct (runs e); [|reflexivity]. apply act_kind; auto. reflexivity.
Qed.
(** the whole history of a ping *)
Definition told (x : ep * list out) : list event := filter is_outcome (seen (snd x) ++ k_ev (e_core (fst x))).
Lemma told_eq x : told x = filter is_outcome (seen (snd x)) ++ outcomes (fst x).
Proof. apply filter_app. Qed.
Lemma told_cons e o os : told (ep_run C e (o :: os)) = filter is_outcome (seen (snd (ep_step C e o))) ++ told (ep_run C (fst (ep_step C e o)) os).
Proof. rewrite !told_eq. cbn [ep_run]. destruct (ep_step C e o) as [e1 x]. cbn [fst snd]. destruct (ep_run C e1 os) as [e2 y]. cbn [fst snd]. rewrite seen_app, filter_app, <- app_assoc. reflexivity. Qed.
Lemma told_nil e : told (ep_run C e []) = outcomes e.
Proof. rewrite told_eq. reflexivity. Qed.
Lemma ping_hist os : forall e p, einv C e -> pings e -> aget q (e_probes e) = Some p -> p_kind p = PKPing -> (forall ev, In (ERequeue ev) os -> is_outcome ev = false) ->
  (aget q (e_probes (fst (ep_run C e os))) = Some p /\ told (ep_run C e os) = outcomes e) \/
  exists h o r ev, os = h ++ o :: r /\ aget q (e_probes (fst (ep_run C e h))) = Some p /\ told (ep_run C e h) = outcomes e /\
    told (ep_run C e (h ++ [o])) = outcomes e ++ [ev] /\ ends p o ev.
Proof.
  induction os as [|o os IH]; intros e p I PG G PK NR; [left; split; [exact G|apply told_nil]|].
  assert (aget q (e_probes (fst (ep_step C e o))) = Some p /\ filter is_outcome (seen (snd (ep_step C e o))) ++ outcomes (fst (ep_step C e o)) = outcomes e \/
    exists ev, filter is_outcome (seen (snd (ep_step C e o))) ++ outcomes (fst (ep_step C e o)) = outcomes e ++ [ev] /\ ends p o ev) as S.
  { destruct (match o with EPollEvent => true | _ => false end) eqn:PO.
    { destruct o; try discriminate. left. split; [|symmetry; apply poll_kind].
      exact (ping_stays e _ p I (einv_op C e EPollEvent I) PG (pings_op e EPollEvent I PG) G PK (stays_op e EPollEvent I Logic.I)). }
    rewrite (seen_none C e o) by (intros ->; discriminate). cbn [filter app].
    destruct (match o with ERequeue _ => true | _ => false end) eqn:RQ.
    { destruct o; try discriminate. left. split; [|rewrite (requeue_kind is_outcome (fun _ _ _ => eq_refl)); cbn [filter]; rewrite NR by (left; reflexivity); apply app_nil_r].
      exact (ping_stays e _ p I (einv_op C e _ I) PG (pings_op e _ I PG) G PK (stays_op e (ERequeue ev) I Logic.I)). }
    destruct (ping_step e o p I PG G PK) as [X|(ev & A & B & _)]; [intros ->; discriminate|intros ev ->; discriminate|left; exact X|right; eauto]. }
  destruct S as [[G1 S]|(ev & S & E)].
  - destruct (IH _ p (einv_op C e o I) (pings_op e o I PG) G1 PK ltac:(intros ev IN; apply NR; right; exact IN)) as [[G2 T]|(h & o' & r & ev & -> & G2 & T1 & T2 & E)].
    + left. split; [|rewrite told_cons, T; exact S]. cbn [ep_run]. destruct (ep_step C e o) as [e1 x]. cbn [fst] in *. destruct (ep_run C e1 os). exact G2.
    + right. exists (o :: h), o', r, ev. split; [reflexivity|]. split; [cbn [ep_run]; destruct (ep_step C e o) as [e1 x]; cbn [fst] in *; destruct (ep_run C e1 h); exact G2|].
      cbn [app]. rewrite !told_cons, T1, T2. split; [exact S|]. split; [|exact E]. rewrite app_assoc, S. reflexivity.
  - right. exists [], o, os, ev. split; [reflexivity|]. split; [exact G|]. split; [apply told_nil|]. split; [|exact E].
    cbn [app]. rewrite told_cons, told_nil. exact S.
Qed.
(** a timer call at or after its end settles it *)
Lemma ping_due os now : forall e p, einv C e -> pings e -> aget q (e_probes e) = Some p -> p_kind p = PKPing -> (forall ev, In (ERequeue ev) os -> is_outcome ev = false) ->
  runs (fst (ep_run C e os)) = true -> p_fail p <= now ->
  exists h o r ev, os ++ [ETimeout now] = h ++ o :: r /\ aget q (e_probes (fst (ep_run C e h))) = Some p /\ told (ep_run C e h) = outcomes e /\
    told (ep_run C e (h ++ [o])) = outcomes e ++ [ev] /\ ends p o ev.
Proof.
  intros e p I PG G PK NR RU L. destruct (ping_hist os e p I PG G PK NR) as [[G1 T]|(h & o & r & ev & -> & X)].
  - pose proof (einv_run C os e I) as I1. pose proof (ping_hist (os ++ [ETimeout now]) e p I PG G PK) as H.
    destruct H as [[G2 _]|H]; [|exfalso|exact H].
    + intros ev IN. apply in_app_or in IN as [IN|[IN|[]]]; [apply NR, IN|discriminate].
    + rewrite ep_run_snoc in G2. cbn [fst ep_step] in G2.
      assert (pings (fst (ep_run C e os))) as PG1.
      { clear -I PG. revert e I PG. induction os as [|o os IH]; intros e I PG; [exact PG|]. cbn [ep_run]. specialize (IH _ (einv_op C e o I) (pings_op e o I PG)). destruct (ep_step C e o) as [e1 x]. cbn [fst] in *. destruct (ep_run C e1 os). exact IH. }
      destruct (timeout_ping now _ p I1 RU PG1 G1 PK) as [(X & _)|(_ & ev & _ & _ & X)]; [lia|]. specialize (X _ G2). congruence.
  - exists h, o, (r ++ [ETimeout now]), ev. split; [rewrite <- app_assoc; reflexivity|exact X].
Qed.
(** once the node has left nothing settles it any more *)
Lemma stays_down os : forall e, einv C e -> runs e = false -> runs (fst (ep_run C e os)) = false.
Proof.
  induction os as [|o os IH]; intros e I R; [exact R|].
  assert (runs (fst (ep_step C e o)) = false) as R1.
  { destruct o; try (apply (stopped_step C); auto; fail). all: cbn [ep_step fst].
    - unfold reset_nodes. change (runs (act C (KReset now) e) = false). rewrite (runs_nl C) by exact Logic.I. exact R.
    - rewrite (runs_nl C) by exact Logic.I. exact R. }
  pose proof (einv_op C e o I) as I1. cbn [ep_run]. destruct (ep_step C e o) as [e1 x1]. cbn [fst snd] in *.
  specialize (IH e1 I1 R1). destruct (ep_run C e1 os) as [e2 x2]. exact IH.
Qed.
Lemma left_pending os : forall e p, einv C e -> pings e -> runs e = false -> aget q (e_probes e) = Some p -> p_kind p = PKPing -> (forall ev, In (ERequeue ev) os -> is_outcome ev = false) ->
  aget q (e_probes (fst (ep_run C e os))) = Some p /\ told (ep_run C e os) = outcomes e.
Proof.
  intros e p I PG R G PK NR. destruct (ping_hist os e p I PG G PK NR) as [X|(h & o & r & ev & -> & G1 & T1 & T2 & E)]; [exact X|exfalso].
  pose proof (stays_down h e I R) as RH.
  assert (fst (ep_step C (fst (ep_run C e h)) o) = fst (ep_run C e h) /\ seen (snd (ep_step C (fst (ep_run C e h)) o)) = []) as [S1 S2].
  { set (x := fst (ep_run C e h)) in *. clearbody x. clear -RH E. split; [|apply seen_none; intros ->; destruct E as [(t & pl & _ & _ & [E|(_ & u & E)])|(_ & t & _ & [E|[(pl & E)|(u & E)]])]; discriminate].
    destruct E as [(t & pl & _ & _ & [->|(_ & u & ->)])|(_ & t & _ & [->|[(pl & ->)|(u & ->)]])]; cbn [ep_step fst handle_stream_event]; unfold handle_packet, handle_timeout; rewrite RH; reflexivity. }
  rewrite told_eq in T1, T2. rewrite ep_run_snoc in T2. cbn [fst snd] in T2. rewrite S1, seen_app, S2, app_nil_r, T1 in T2.
  apply (f_equal (@length event)) in T2. rewrite app_length in T2. cbn in T2. lia.
Qed.
End Ping.
(** the request itself *)
Lemma ping_call_exact e nd now q : snd (ep_step C e (EPing nd now)) = [OId q] ->
  let e' := fst (ep_step C e (EPing nd now)) in
  q <> 0 /\ q < two32 /\ aget q (e_acks e) = None /\ aget q (e_probes e) = None /\ aget q (e_fwds e) = None /\
  e_core e' = e_core e /\ e_tx e' = e_tx e ++ [TPacket (nd_addr nd) (MPing q (mkNode LID (c_addr C)) nd)] /\
  elen C (MPing q (mkNode LID (c_addr C)) nd) <= c_mtu C /\
  (forall j, j <> q -> aget j (e_probes e') = aget j (e_probes e)) /\
  exists p, aget q (e_probes e') = Some p /\ ns_addr (p_target p) = nd_addr nd /\ p_kind p = PKPing /\ p_sent p = now /\ p_fail p = tadd now (c_probe_timeout C) /\
    p_target p = match aget (nd_id nd) (k_mem (e_core e)) with
                 | Some m => if ns_addr (m_server m) =? nd_addr nd then m_server m else mkNS (nd_id nd) (nd_addr nd) PAlive [] 1 1
                 | None => mkNS (nd_id nd) (nd_addr nd) PAlive [] 1 1 end.
Proof.
  cbn [ep_step]. unfold ping. destruct (negb _); [discriminate|]. cbv zeta. destruct (alloc_seq e) as [[s e1]|] eqn:A; [|discriminate].
  pose proof (alloc_seq_spec _ _ _ A) as (-> & Q0 & Q1 & U). apply seq_used_false in U as (U2 & U3 & U1).
  destruct (N.ltb_spec (c_mtu C) (elen C (MPing s (lnode C) nd))) as [|L]; [discriminate|]. cbn [fst snd]. intros [= <-].
  split; [exact Q0|]. split; [exact Q1|]. split; [exact U1|]. split; [exact U2|]. split; [exact U3|]. split; [reflexivity|]. split; [reflexivity|]. split; [exact L|].
  split; [intros j NE; cbn; rewrite aget_aset; destruct (N.eqb_spec j s); [contradiction|reflexivity]|].
  cbn. rewrite aget_aset, N.eqb_refl. eexists. split; [reflexivity|]. cbn. split; [|auto].
  destruct (aget (nd_id nd) _) as [m|]; [|reflexivity]. destruct (N.eqb_spec (ns_addr (m_server m)) (nd_addr nd)); [assumption|reflexivity].
Qed.

(** ** Relaying for others *)
Lemma relay_exact from s src tgt now e : einv C e -> runs e = true -> from = nd_addr src -> blen (e_fwds e) < c_max_forwards C -> blen (e_acks e) + 1 < two32 ->
  (forall x, In x (e_fwds e) -> ~ (f_reply (snd x) = nd_addr src /\ f_rseq (snd x) = s /\ f_target (snd x) = nd_addr tgt)) ->
  let e' := fst (ep_step C e (EPacket from (MIndirectPing s src tgt) now)) in
  exists q, q <> 0 /\ q < two32 /\ aget q (e_acks e) = None /\ aget q (e_probes e) = None /\ aget q (e_fwds e) = None /\
    let m := MPing q (mkNode LID (c_addr C)) tgt in
    e_core e' = e_core e /\ e_probes e' = e_probes e /\
    if elen C m <=? c_mtu C
    then e_tx e' = e_tx e ++ [TPacket (nd_addr tgt) m] /\
         e_fwds e' = aset q (mkFwd (nd_addr src) (nd_addr tgt) s (tadd now (c_probe_timeout C))) (e_fwds e)
    else e_tx e' = e_tx e ++ [TPacket (nd_addr src) (MNack s)] /\ e_fwds e' = e_fwds e.
Proof.
  intros I R -> CAP B ND. cbn [ep_step fst]. unfold handle_packet. rewrite R. cbn [negb]. unfold handle_indirect_ping. rewrite N.eqb_refl. cbn [negb].
  destruct (N.leb_spec (c_max_forwards C) (blen (e_fwds e))) as [X|_]; [lia|].
  destruct (existsb _ (e_fwds e)) eqn:EX.
  { exfalso. apply existsb_exists in EX as (x & IN & T). apply Bool.andb_true_iff in T as [T T3]. apply Bool.andb_true_iff in T as [T1 T2]. apply N.eqb_eq in T1, T2, T3. apply (ND x IN). auto. }
  destruct (alloc_some C e I B) as (q & e1 & A). rewrite A. pose proof (alloc_seq_spec _ _ _ A) as (-> & Q0 & Q1 & U). apply seq_used_false in U as (U2 & U3 & U1).
  exists q. do 5 (split; [assumption|]). cbv zeta. change (mkNode LID (c_addr C)) with (lnode C). destruct (_ <=? _); cbn [negb]; repeat split.
Qed.
(** otherwise nothing happens *)
Lemma relay_refused from s src tgt now e : 
  from <> nd_addr src \/ c_max_forwards C <= blen (e_fwds e) \/
  (exists x, In x (e_fwds e) /\ f_reply (snd x) = nd_addr src /\ f_rseq (snd x) = s /\ f_target (snd x) = nd_addr tgt) ->
  fst (ep_step C e (EPacket from (MIndirectPing s src tgt) now)) = e.
Proof.
  intros H. cbn [ep_step fst]. unfold handle_packet. destruct (negb (runs e)); [reflexivity|]. unfold handle_indirect_ping.
  destruct (N.eqb_spec from (nd_addr src)) as [E|]; [|reflexivity]. cbn [negb]. destruct (N.leb_spec (c_max_forwards C) (blen (e_fwds e))) as [|L]; [reflexivity|].
  destruct H as [H|[H|(x & IN & A & B & D)]]; [contradiction|lia|].
  assert (existsb (fun p => (f_reply (snd p) =? nd_addr src) && (f_rseq (snd p) =? s) && (f_target (snd p) =? nd_addr tgt)) (e_fwds e) = true) as ->; [|reflexivity].
  apply existsb_exists. exists x. split; [exact IN|]. rewrite A, B, D, !N.eqb_refl. reflexivity.
Qed.

(** ** Schedules *)
Lemma stagger_lt i e : 0 < i -> i < two64 -> fst (stagger C i e) < i.
Proof.
  intros P L. unfold stagger. cbv zeta. rewrite N.mod_small by exact L. destruct (N.eqb_spec i 0); [lia|]. cbn [fst]. apply N.mod_lt. lia.
Qed.
Lemma schedule_exact now e : runs e = true -> c_probe_interval C < two64 -> c_gossip_interval C < two64 -> c_pp_interval C < two64 ->
  let e' := fst (ep_step C e (ESchedule now)) in
  (if 0 <? c_probe_interval C then exists s, s < c_probe_interval C /\ e_np e' = Some (tadd now s) else e_np e' = e_np e) /\
  (if (0 <? c_gossip_interval C) && (0 <? c_gossip_nodes C) then exists s, s < c_gossip_interval C /\ e_ng e' = Some (tadd now s) else e_ng e' = e_ng e) /\
  (if 0 <? c_pp_interval C then exists s, s < c_pp_interval C /\ e_npp e' = Some (tadd now s) else e_npp e' = e_npp e).
Proof.
  intros R L1 L2 L3. cbn [ep_step fst]. unfold start_scheduling. rewrite R. cbn [negb]. cbv zeta.
  assert (forall i x, e_np (snd (stagger C i x)) = e_np x /\ e_ng (snd (stagger C i x)) = e_ng x /\ e_npp (snd (stagger C i x)) = e_npp x) as S
    by (intros i x; unfold stagger; cbv zeta; destruct (_ =? 0); repeat split).
  set (e1 := if 0 <? c_probe_interval C then _ else e).
  assert ((if 0 <? c_probe_interval C then exists s, s < c_probe_interval C /\ e_np e1 = Some (tadd now s) else e_np e1 = e_np e) /\ e_ng e1 = e_ng e /\ e_npp e1 = e_npp e) as (A1 & A2 & A3).
  { unfold e1. destruct (N.ltb_spec 0 (c_probe_interval C)) as [P|_]; [|auto]. pose proof (stagger_lt _ e P L1) as T. pose proof (S (c_probe_interval C) e) as (B1 & B2 & B3).
    destruct (stagger C (c_probe_interval C) e) as [s x]. cbn [fst snd] in *. cbn. split; [exists s; auto|auto]. }
  clearbody e1. set (e2 := if (0 <? c_gossip_interval C) && _ then _ else e1).
  assert ((if (0 <? c_gossip_interval C) && (0 <? c_gossip_nodes C) then exists s, s < c_gossip_interval C /\ e_ng e2 = Some (tadd now s) else e_ng e2 = e_ng e1) /\ e_np e2 = e_np e1 /\ e_npp e2 = e_npp e1) as (B1 & B2 & B3).
  { unfold e2. destruct (N.ltb_spec 0 (c_gossip_interval C)) as [P|_]; cbn [andb]; [|auto]. destruct (0 <? c_gossip_nodes C); [|auto]. pose proof (stagger_lt _ e1 P L2) as T. pose proof (S (c_gossip_interval C) e1) as (D1 & D2 & D3).
    destruct (stagger C (c_gossip_interval C) e1) as [s x]. cbn [fst snd] in *. cbn. split; [exists s; auto|auto]. }
  clearbody e2. destruct (N.ltb_spec 0 (c_pp_interval C)) as [P|_].
  - pose proof (stagger_lt _ e2 P L3) as T. pose proof (S (c_pp_interval C) e2) as (D1 & D2 & D3). destruct (stagger C (c_pp_interval C) e2) as [s x]. cbn [fst snd] in *. cbn. rewrite D1, D2, B2.
    split; [exact A1|]. split; [|exists s; auto]. rewrite <- A2. exact B1.
  - rewrite B2, B3. split; [exact A1|]. split; [rewrite <- A2; exact B1|exact A3].
Qed.

(** ** The ack payload fits *)
Definition payload_ok (e : ep) : Prop := elen C (MAck u32_max (e_payload e)) <= c_mtu C.
Lemma payload_step e ks cs e' : estep C e ks cs e' -> payload_ok e -> payload_ok e'.
Proof.
  unfold payload_ok. intros S H. assert (e_payload e' = e_payload e -> elen C (MAck u32_max (e_payload e')) <= c_mtu C) as K by (intros ->; exact H).
  destruct S; try (apply K; reflexivity); try (apply K; assumption).
  - apply K. unfold probe_fail. destruct (aget s (e_probes e)) as [p0|]; [|reflexivity]. cbv zeta. destruct (p_phase p0) as [|? ? ? [?|] ?]; destruct (p_kind p0); try reflexivity; destruct (negb (p_disp p0)); try reflexivity; match goal with |- context [same_instance ?a ?b] => destruct (same_instance a b); reflexivity end.
  - assumption.
  - pose proof (gossip_rest C e) as G. destruct (gossip_batch C e) as [g ms]. apply K. cbn [fst] in G. apply G.
  - pose proof (leave_rest C now fw e ltac:(assumption)) as LR. cbv zeta in LR. apply K, LR.
  - pose proof (poll_rest C e) as PR. cbv zeta in PR. apply K, PR.
Qed.
Lemma payload_reach e : reach C e -> payload_ok e.
Proof.
  intros (t0 & e0 & os & N & ->). pose proof (einv_new C t0 e0 N) as I. assert (payload_ok e0) as P.
  { unfold payload_ok. unfold ep_new in N. destruct (cfg_ok C) eqn:CO; [|discriminate]. apply Some_inj in N as <-. unfold cfg_ok in CO.
    repeat match goal with H : _ && _ = true |- _ => apply Bool.andb_true_iff in H as [? ?] end. unfold refresh_cache. destruct (_ && _); cbn [e_payload e_set_cache e_set_cdirty e_set_cver]; apply N.leb_le; assumption. }
  revert e0 N I P. intros e0 _. revert e0. induction os as [|o os IH]; intros e0 I P; [exact P|]. cbn [ep_run].
  assert (payload_ok (fst (ep_step C e0 o))) as P1.
  { destruct (step_chain C e0 o I) as (ks & cr & S & _). clear -S P. induction S as [|? ? ? ? ? ? ? S _ IH]; [exact P|]. apply IH. eapply payload_step; eassumption. }
  pose proof (einv_op C e0 o I) as I1. destruct (ep_step C e0 o) as [e1 x]. cbn [fst] in *. specialize (IH e1 I1 P1). destruct (ep_run C e1 os). exact IH.
Qed.

(** ** The departed are forgotten *)
Lemma tick_no_alive (A : N -> Prop) u o now al : tick_op C u A o -> ~ origin C o now (GAlive al).
Proof. intros T. destruct T; cbn; try tauto; [intros (_ & i & id & E & _)|intros [_ E]]; discriminate. Qed.
(** [r']: what a timer call may make of a departed member's record [r] *)
Definition faded (u : N) (r r' : option member) : Prop := r' = r \/ r' = None.
Lemma faded_step (A : N -> Prop) u o now k k' id : kinv k -> tick_op C u A o -> kstep C o now k k' -> id <> LID ->
  match rec_at k id with Some m => dead_or_left (m_state m) = true | None => True end -> faded u (rec_at k id) (rec_at k' id).
Proof.
  intros K T S NL D. pose proof (step_trans C o now k k' id K S) as M. pose proof (tick_no_alive A u o now) as NA.
  destruct M; try (left; reflexivity); try (right; reflexivity); try (exfalso; congruence); try (exfalso; eapply NA; eassumption).
  - rewrite H2 in D. discriminate.
  - rewrite H2 in D. discriminate.
  - subst o. inversion T.
Qed.
Lemma members_step (A : N -> Prop) u o now k k' id : kinv k -> tick_op C u A o -> kstep C o now k k' -> rec_at k id = None -> rec_at k' id = None.
Proof.
  intros K T S E. pose proof (step_trans C o now k k' id K S) as M. pose proof (tick_no_alive A u o now) as NA. rewrite E in M. inversion M; subst; auto. exfalso; eapply NA; eassumption.
Qed.
Lemma ticks_ind (A : N -> Prop) u (P : core -> core -> Prop) : (forall k, P k k) -> (forall a b c, P a b -> P b c -> P a c) ->
  (forall o now k k', kinv k -> tick_op C u A o -> kstep C o now k k' -> P k k') -> forall e e', kinv (e_core e) -> ticks C A u e e' -> P (e_core e) (e_core e').
Proof.
  intros PR PT PS e e' K (os & E & F). rewrite E. clear E. rewrite core_run_fst. revert K. generalize (e_core e) as k. induction F as [|o os T _ IH]; intros k K; [apply PR|].
  cbn [fold_left]. pose proof (kinv_core_step C k o K) as K1. eapply PT; [|apply IH, K1]. clear IH K1.
  pose proof (core_step_steps C k o K) as S. induction S as [|? ? ? S _ IHS]; [apply PR|]. eapply PT; [eapply PS; eassumption|]. apply IHS. eapply (kinv_step C); eauto.
Qed.
Lemma ticks_faded (A : N -> Prop) u e e' id : kinv (e_core e) -> ticks C A u e e' -> id <> LID ->
  match rec_at (e_core e) id with Some m => dead_or_left (m_state m) = true | None => True end -> faded u (rec_at (e_core e) id) (rec_at (e_core e') id).
Proof.
  intros K T NL. apply (ticks_ind A u (fun k k' => match rec_at k id with Some m => dead_or_left (m_state m) = true | None => True end -> faded u (rec_at k id) (rec_at k' id))); [left; reflexivity| | |exact K|exact T].
  - intros a b c H1 H2 D. destruct (H1 D) as [E|E]; rewrite E in H2; [exact (H2 D)|]. destruct (H2 Logic.I) as [X|X]; right; exact X.
  - intros o now k k' K0 T0 S D. eapply faded_step; eauto.
Qed.
Lemma ticks_count (A : N -> Prop) u e e' : kinv (e_core e) -> kinv (e_core e') -> ticks C A u e e' -> k_n (e_core e') <= k_n (e_core e).
Proof.
  intros K K' T. assert (forall id, rec_at (e_core e) id = None -> rec_at (e_core e') id = None) as H.
  { intros id. apply (ticks_ind A u (fun k k' => rec_at k id = None -> rec_at k' id = None)); [auto|auto| |exact K|exact T]. intros o now k k' K0 T0 S. eapply members_step; eauto. }
  unfold k_n, blen. rewrite <- (map_length fst (k_mem (e_core e'))), <- (map_length fst (k_mem (e_core e))).
  enough (length (map fst (k_mem (e_core e'))) <= length (map fst (k_mem (e_core e))))%nat by lia.
  apply NoDup_incl_length; [apply (ki_nodup _ _ K')|]. intros id IN. destruct (rec_at (e_core e) id) as [m|] eqn:E; [exact (aget_some_key _ _ _ E)|].
  apply (H id) in E. exfalso. apply aget_none in E. apply E, IN.
Qed.
(** how far the round has come, over calls that do not end it *)
Lemma psr_gossip now e : e_psr (fire_gossip C now e) = e_psr e.
Proof.
  unfold fire_gossip. destruct (e_ng e); [|reflexivity]. destruct (_ <? _); [reflexivity|]. unfold pick. destruct (btake _ _); [reflexivity|].
  pose proof (gossip_batch_merge C (act C (KDraws 1) e)) as V.
  match goal with |- context [gossip_batch C ?x] => assert (view (fst (gossip_batch C x)) = view e) as W; [rewrite gossip_batch_merge; reflexivity|]; destruct (gossip_batch C x) as [g ms] end.
  cbn [fst] in W. unfold view in W. destruct ms; cbn; congruence.
Qed.
Lemma psr_pp now e : e_psr (fire_pushpull C now e) = e_psr e.
Proof.
  unfold fire_pushpull. destruct (e_npp e); [|reflexivity]. destruct (_ <? _); [reflexivity|]. cbv zeta. cbn [e_psr e_set_npp].
  destruct (live_addrs C e) as [|a l]; [reflexivity|]. unfold pick. destruct (btake 1 _); [reflexivity|].
  match goal with |- e_psr (snd (announce C ?x)) = _ => pose proof (announce_merge C x) as V end. unfold push_pull_direct in *. rewrite open_merge in V. unfold view in V. cbn in V |- *. congruence.
Qed.
Lemma psr_refresh e : e_psr (refresh_cache e) = e_psr e.
Proof. unfold refresh_cache. destruct (_ && _); reflexivity. Qed.
(** a timer call at [now] is due to probe *)
Definition probe_due (now : N) (e : ep) : bool := runs e && match e_np e with Some d => d <=? now | None => false end.
Lemma psr_idle now e : probe_due now e = false -> e_psr (handle_timeout C now e) = e_psr e.
Proof.
  unfold probe_due. destruct (runs e) eqn:R; cbn [andb]; [|intros _; unfold handle_timeout; rewrite R; reflexivity]. intros ND.
  pose proof (quick_view C now e) as V. unfold handle_timeout. rewrite R. cbn [negb]. set (e4 := fire_expired_intents _ _) in *.
  assert (e_np e4 = e_np e /\ e_psr e4 = e_psr e) as [N4 P4] by (unfold view in V; split; congruence). clearbody e4.
  rewrite psr_refresh, psr_pp, psr_gossip. unfold fire_probe. rewrite N4. destruct (e_np e) as [d|]; [|exact P4]. destruct (N.leb_spec d now); [discriminate|].
  destruct (N.ltb_spec now d); [exact P4|lia].
Qed.
Lemma forgets now e id m : einv C e -> probe_due now e = true ->
  id <> LID -> aget id (k_mem (e_core e)) = Some m -> dead_or_left (m_state m) = true -> c_dead_window C < tsub now (m_change m) ->
  aget id (k_mem (e_core (handle_timeout C now e))) = None \/ (e_psr (handle_timeout C now e) = e_psr e + 1 /\ e_psr e + 1 < k_n (e_core e)).
Proof.
  unfold probe_due. destruct (runs e) eqn:R; [|discriminate]. cbn [andb]. intros I ND NL G D W. destruct (e_np e) as [d|] eqn:NP; [|discriminate]. apply N.leb_le in ND. rename ND into L.
  set (all := fun _ : N => True).
  assert (forall s, all s) as AL by (intros; exact Logic.I).
  pose proof (ei_core _ _ I) as K. pose proof (quick_view C now e) as V.
  set (e4 := fire_expired_intents now (fire_expired_forwards now (advance_fsm C now (act C (KExpire now) e)))) in *.
  assert (ticks C all now e e4) as T4.
  { unfold e4. eapply ticks_trans; [apply ticks_expire|]. eapply ticks_trans; [apply ticks_fsm, AL|].
    apply ticks_same. rewrite (proj1 (core_intents C now _)), (proj1 (core_forwards C now _)). reflexivity. }
  assert (handle_timeout C now e = refresh_cache (fire_pushpull C now (fire_gossip C now (fire_probe C now e4)))) as E by (unfold handle_timeout; rewrite R; reflexivity).
  assert (e_np e4 = Some d /\ e_psr e4 = e_psr e) as [N4 P4] by (unfold view in V; split; congruence). clearbody e4.
  pose proof (ticks_kinv all now e e4 T4 K) as K4.
  pose proof (ticks_faded all now e e4 id K T4 NL) as F4. unfold rec_at in F4. rewrite G in F4. specialize (F4 D).
  pose proof (ticks_count all now e e4 K K4 T4) as B4.
  assert (aget id (k_mem (e_core (fire_probe C now e4))) = None \/ (e_psr (fire_probe C now e4) = e_psr e + 1 /\ e_psr e + 1 < k_n (e_core e))) as [F5|F5].
  { unfold fire_probe. rewrite N4. destruct (N.ltb_spec now d); [lia|]. cbv zeta. cbn [e_core e_set_np e_psr]. rewrite start_mem.
    match goal with |- context [e_psr (start_probe C now ?x)] => assert (e_psr (start_probe C now x) = e_psr x) as -> by (pose proof (start_probe_merge C now x) as X; unfold view in X; congruence) end.
    cbn [e_core e_set_psr e_psr]. rewrite P4.
    assert (0 < k_n (e_core e4)) as PO.
    { destruct (local_rec C _ K4) as (ml & GL & _). unfold rec_at in GL. unfold k_n, blen. destruct (k_mem (e_core e4)); [discriminate|]. cbn. lia. }
    destruct (N.ltb_spec 0 (k_n (e_core e4))); [|lia]. destruct (N.leb_spec (k_n (e_core e4)) (e_psr e + 1)); cbn [andb e_core e_set_psr e_psr reset_nodes e_set_pidx act e_set_core]; [left|right; split; [reflexivity|lia]].
    pose proof (rec_reset C now (e_core e4) id K4) as RR. unfold rec_at in RR. change (aget id (k_mem (reset_members C now (e_core e4))) = None). rewrite RR.
    destruct F4 as [F4|F4]; rewrite F4; [|reflexivity]. unfold kept, removable. cbn [fst snd]. rewrite D.
    destruct (N.eqb_spec id LID); [contradiction|]. destruct (N.ltb_spec (c_dead_window C) (tsub now (m_change m))); [reflexivity|lia]. }
  - left. assert (ticks C all now (fire_probe C now e4) (handle_timeout C now e)) as T6.
    { rewrite E. eapply ticks_trans; [apply ticks_gossip|]. eapply ticks_trans; [apply ticks_pp|apply ticks_refresh]. }
    pose proof (ticks_kinv all now _ _ (ticks_probe C all now e4) K4) as K5.
    destruct (ticks_faded all now _ _ id K5 T6 NL) as [X|X]; unfold rec_at in *; rewrite ?F5 in *; auto.
  - right. rewrite E, psr_refresh, psr_pp, psr_gossip. exact F5.
Qed.
Lemma psr_op e o : (forall now, o <> ETimeout now) -> e_psr (fst (ep_step C e o)) = e_psr e.
Proof.
  intros NT. destruct (moves o) eqn:M.
  - destruct o; try discriminate M; cbn [ep_step fst]; try reflexivity.
    + exfalso. eapply NT; reflexivity.
    + destruct (runs e) eqn:R; [|unfold leave_with; rewrite R; reflexivity]. rewrite (leave_eq C _ _ e R). cbv zeta.
      destruct (live_addrs C _) as [|a l]; [reflexivity|]. cbn [e_psr e_set_flush e_set_tx e_set_ub]. unfold farewell_payloads. cbv zeta. unfold drain_user. cbv zeta.
      destruct (match farewell with Some _ => _ | None => _ end) as [b r]. destruct r; [destruct (b =? 0); [reflexivity|]|]; destruct (ub_take _ _ _ _ _) as [[? ?] ?]; reflexivity.
    + unfold set_snapshot, res. destruct (negb _); [reflexivity|]. destruct (snapshot_fits C _); reflexivity.
    + unfold start_scheduling. destruct (negb _); [reflexivity|]. cbv zeta.
      assert (forall i x, e_psr (snd (stagger C i x)) = e_psr x) as S by (intros i x; unfold stagger; cbv zeta; destruct (_ =? 0); reflexivity).
      assert (forall (b : bool) i f x, (forall a y, e_psr (f a y) = e_psr y) -> e_psr (if b then (let '(s, y) := stagger C i x in f s y) else x) = e_psr x) as S2
        by (intros b i f x F; destruct b; [|reflexivity]; specialize (S i x); destruct (stagger C i x); rewrite F; exact S).
      rewrite (S2 _ _ (fun s y => e_set_npp (Some (tadd now s)) y)) by reflexivity. rewrite (S2 _ _ (fun s y => e_set_ng (Some (tadd now s)) y)) by reflexivity.
      rewrite (S2 _ _ (fun s y => e_set_np (Some (tadd now s)) y)) by reflexivity. reflexivity.
  - pose proof (step_view C e o M) as V. unfold view in V. congruence.
Qed.
(** how many timer calls of a run probe *)
Fixpoint rounds (e : ep) (os : list eop) : N :=
  match os with
  | [] => 0
  | o :: os => (match o with ETimeout now => if probe_due now e then 1 else 0 | _ => 0 end) + rounds (fst (ep_step C e o)) os
  end.
Lemma forgotten id m M : id <> LID -> dead_or_left (m_state m) = true -> forall os e, einv C e ->
  (forall pre post, os = pre ++ post -> k_n (e_core (fst (ep_run C e pre))) <= M) -> (forall now, In (ETimeout now) os -> c_dead_window C < tsub now (m_change m)) ->
  M <= e_psr e + rounds e os -> 0 < rounds e os ->
  ~ forall pre post, os = pre ++ post -> aget id (k_mem (e_core (fst (ep_run C e pre)))) = Some m.
Proof.
  intros NL D. induction os as [|o os IH]; intros e I B WI L P H; [cbn in P; lia|]. cbn [rounds] in *.
  pose proof (H [] (o :: os) eq_refl) as G. cbn [ep_run fst] in G. pose proof (B [] (o :: os) eq_refl) as B0. cbn [ep_run fst] in B0.
  pose proof (einv_op C e o I) as I1.
  assert (forall pre, fst (ep_run C e (o :: pre)) = fst (ep_run C (fst (ep_step C e o)) pre)) as RC by (intros; rewrite !ep_run_fst; reflexivity).
  assert (forall pre post, os = pre ++ post -> k_n (e_core (fst (ep_run C (fst (ep_step C e o)) pre))) <= M) as B1 by (intros pre post ->; rewrite <- RC; apply (B (o :: pre) post); reflexivity).
  assert (forall pre post, os = pre ++ post -> aget id (k_mem (e_core (fst (ep_run C (fst (ep_step C e o)) pre)))) = Some m) as H1 by (intros pre post ->; rewrite <- RC; apply (H (o :: pre) post); reflexivity).
  pose proof (H1 [] os eq_refl) as G1. cbn [ep_run fst] in G1.
  assert (forall now, In (ETimeout now) os -> c_dead_window C < tsub now (m_change m)) as W1 by (intros; apply WI; right; assumption).
  assert (e_psr (fst (ep_step C e o)) = e_psr e -> M <= e_psr e + rounds (fst (ep_step C e o)) os -> 0 < rounds (fst (ep_step C e o)) os -> False) as STAY.
  { intros E L0 P0. apply (IH _ I1 B1 W1); [rewrite E; exact L0|exact P0|exact H1]. }
  destruct o; try (apply STAY; [apply psr_op; discriminate|exact L|exact P]).
  destruct (probe_due now e) eqn:PD; [|apply STAY; [apply psr_idle, PD|exact L|exact P]].
  pose proof (WI now ltac:(left; reflexivity)) as W.
  cbn [ep_step fst] in *. destruct (forgets now e id m I PD NL G D W) as [X|[X Y]]; [congruence|]. apply (IH _ I1 B1 W1); [rewrite X; lia| |exact H1]. lia.
Qed.
End Outcome.
