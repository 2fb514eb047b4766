(** Properties C85 to C94: the coordinator of reliable exchanges over a byte
    transport, from a new node through any history of calls of its driver.
    [q_run C Q W B rnd (coord_new e kr) os] is the coordinator after the calls
    [os] and what they gave back; [e] is a new endpoint, [kr] the encryption
    options. *)
From Verif Require Import CodecModel.
From Verif Require Import Base BaseFacts MapFacts CoreFacts KeyringFacts EndpointInv EndpointHist EndpointDetect EndpointOutcome PropsEndpoint PropsWire TransformToy PropsTransform
  CoordModel BridgeFacts CoordFacts CoordRuns CoordSteps CoordFrame CoordMeta CoordClaims CoordReports.
Local Open Scope N_scope.

(** ** Two nodes for the examples: node [i] at address [100 + i], a label, real
    messages, toy ciphers with a fixed nonce *)
Definition qe_cfg (i : N) : cfg :=
  mkCfg i (100 + i) 1 1 5 [7] 512 4 (fun _ => (1000, 6000)) (fun _ _ _ _ => 2%Z) (fun _ => 4)
    8 500 30000 None (fun i => i * 7 + 3) (wire_enc ew)
    1400 65536 [] 2 1000 500 3 200 3 30000 10000 2 true.
Definition qe_q : qcfg := mkQC (Some [97]) false 10000 (Some 2) (mkComp None 0).
Definition qe_rnd (_ _ : N) : option bytes := Some tnonce.
Definition qe_new (i : N) : ep := match ep_new (qe_cfg i) 0 with Some e => e | None => mkEp (core_new (qe_cfg i) 0) [] [] [] 0 0 0 [] None 1 [] DeadlineModel.di_new [] [] (MPushPull false [] []) 0 true [] (ub_new 0) (fun _ => true) None None None end.
Definition qe (i : N) (kr : option keyring) (os : list qop) : coord * list qout :=
  q_run (qe_cfg i) qe_q ew toy qe_rnd (coord_new (qe_new i) kr) os.
Lemma qe_new_ok : ep_new (qe_cfg 1) 0 = Some (qe_new 1) /\ ep_new (qe_cfg 2) 0 = Some (qe_new 2).
Proof. split; unfold qe_new; [assert (H : ep_new (qe_cfg 1) 0 <> None) by (vm_compute; discriminate)|assert (H : ep_new (qe_cfg 2) 0 <> None) by (vm_compute; discriminate)]; destruct (ep_new _ 0); [reflexivity|contradiction|reflexivity|contradiction]. Qed.
(** node 1 joins through node 2: both sides of the push/pull, encrypted *)
Definition said (r : coord * list qout) : bytes := flat_map (fun y => match y with YBytes _ _ b => b | _ => [] end) (snd r).
Definition qe_polls := [QPollAction; QPollBytes; QPollAction; QPollAction; QPollEvent; QPollEvent; QPollEvent].
Definition qe_open := [QPushPull 102 true 10] ++ qe_polls.
Definition qe_answer := [QAccept 101 11; QData 0 (said (qe 1 (Some tr_s) qe_open)) true 12] ++ qe_polls.
Definition qe_reply := said (qe 2 (Some tr_r) qe_answer).
Definition qe_join := qe_open ++ [QData 0 qe_reply true 13] ++ qe_polls.
(** what comes out besides bytes and the first event *)
Definition seen_of (r : coord * list qout) : list qout := filter (fun y => match y with YBytes _ _ _ | YNone => false | YEvent (EvJoined s) => false | _ => true end) (snd r).

Section Coordinator.
Context (C : cfg) (Q : qcfg) (W : wcodec) (B : backends) (rnd : N -> N -> option bytes) (t0 : N) (e : ep) (kr : option keyring).
Notation run := (q_run C Q W B rnd).
Notation start := (coord_new e kr).

(** ** C85: nothing a peer says is acted on before its stream has ended *)
Theorem C85_answers_wait_for_end : ep_new C t0 = Some e -> forall os who ev now,
  In (who, EStreamEv ev now) (q_log (fst (run start os))) -> ev <> SEClosed ->
  exists x data at_, who = Some x /\ In (QData x data true at_) os.
Proof. intros N os who ev now. apply gated. eapply (einv_new C), N. Qed.

(** ** C86: one pump takes all there is to send *)
Theorem C86_drained_in_one_turn : forall now s, let s1 := fst (s_transmit now s) in s_transmit now s1 = (s1, []).
Proof. exact transmit_twice. Qed.

(** ** C87: after a timeout no exchange is past its deadline, and each one has
    the next timeout scheduled before its deadline *)
Theorem C87_deadlines_enforced : ep_new C t0 = Some e -> forall os now,
  let q := fst (run start (os ++ [QTimeout now])) in
  forall x b, aget x (q_conns q) = Some b -> now < br_deadline b /\ br_terminal b = false /\
    forall t, exists d, poll_deadline t q = Some d /\ d <= br_deadline b.
Proof.
  intros N os now q x b G. unfold q in *. rewrite run_app in *. cbn [fst] in *. rewrite run_one in *. pose proof (good_run C Q W B rnd os _ (good_new C rnd e kr (einv_new C _ _ N))) as GD.
  destruct (timely C Q W B rnd _ now GD x b G) as (T & L). split; [exact L|]. split; [exact T|]. intros t. destruct (live_timeout rnd b T) as (d & D & LD). destruct (deadline_timer rnd t _ x b d G D) as (v & V & LV). exists v. split; [exact V|lia].
Qed.

(** ** C88: what the driver is told to do with a connection *)
(** the instructions for one connection come in one of these orders: the write
    half is shut down at most once and first, and then it is closed or aborted *)
Theorem C88_teardown_order : ep_new C t0 = Some e -> forall os x,
  In (filter (fun t => td_ex t =? x) (flat_map (fun y => match y with YAction (ATeardown t) => [t] | _ => [] end) (snd (run start os))))
    [[]; [TShutdown x]; [TClose x]; [TAbort x]; [TAbort x; TAbort x]; [TShutdown x; TClose x]; [TShutdown x; TAbort x]; [TShutdown x; TAbort x; TAbort x]].
Proof.
  intros N os x. pose proof (start_ok C Q W B rnd (wz [] []) e kr os (einv_new C _ _ N) eq_refl eq_refl (fun _ F => F) (fun _ F => F) (fun _ F => F) eq_refl) as K.
  exact (hist_shape C rnd _ _ x (K ltac:(apply Forall_forall; intros; apply fits_wz))).
Qed.
(** a connection is opened at most once *)
Theorem C88_connect_once : ep_new C t0 = Some e -> forall os x,
  (count_occ N.eq_dec (flat_map (fun y => match y with YAction (AConnect x _ _) => [x] | _ => [] end) (snd (run start os))) x <= 1)%nat.
Proof.
  intros N os x. pose proof (start_ok C Q W B rnd (wz [] []) e kr os (einv_new C _ _ N) eq_refl eq_refl (fun _ F => F) (fun _ F => F) (fun _ F => F) eq_refl) as K.
  exact (proj1 (cons_once C rnd _ _ x (K ltac:(apply Forall_forall; intros; apply fits_wz)))).
Qed.
(** after an instruction to shut down, close or abort a connection there are
    neither bytes for it nor an instruction to open it *)
Theorem C88_nothing_after_teardown : ep_new C t0 = Some e -> forall os1 os2 t,
  In (YAction (ATeardown t)) (snd (run start os1)) ->
  forall y, In y (snd (run (fst (run start os1)) os2)) ->
  match y with YBytes x _ _ | YAction (AConnect x _ _) => x <> td_ex t | _ => True end.
Proof.
  intros N os1 os2 t J y JY. pose proof (einv_new C _ _ N) as I. destruct y as [[x p sid|t']|x to bs|ev|from d|i| |o]; try exact Logic.I; intros ->.
  - (* connects *)
    set (w1 := w_add (acts_in (snd (run start os1))) (wz [] [])).
    pose proof (start_ok C Q W B rnd (wz [] []) e kr os1 I eq_refl eq_refl (fun _ F => F) (fun _ F => F) (fun _ F => F) eq_refl ltac:(apply Forall_forall; intros; apply fits_wz)) as K. fold w1 in K.
    assert (H : tds_of (td_ex t) (w_hist w1) <> []).
    { assert (Z : In t (tds_of (td_ex t) (w_hist w1))); [|intros E; now rewrite E in Z]. apply filter_In. split; [|apply N.eqb_refl]. cbn. apply in_flat_map. exists (YAction (ATeardown t)). split; [exact J|now left]. }
    clearbody w1. revert w1 K H JY. generalize (fst (run start os1)) as q. clear - rnd. intros q w K H. assert (LA : w_late w = None -> True) by auto. clear LA.
    assert (exists h c, qok C (wz h c) q /\ tds_of (td_ex t) h <> []) as (h & c & K' & H').
    { exists (w_hist w), (w_cons w). split; [|exact H]. eapply (rewatch_ok C rnd); [| | | | | | |exact K]; cbn; auto; try contradiction; try discriminate; try (intros; contradiction). }
    clear K H w. revert q h c K' H'. induction os2 as [|o os2 IH]; intros q h c K H; [intros []|]. cbn [q_run]. pose proof (step_ok C Q W B rnd (wz h c) q o eq_refl (fits_wz h c o) K) as K1.
    pose proof (action_out C Q W B rnd q o (AConnect (td_ex t) p sid)) as AO. destruct (q_step C Q W B rnd q o) as [q1 y1]. cbn [fst snd] in *.
    specialize (IH q1 (h ++ td_in y1) (c ++ con_in y1) K1). destruct (run q1 os2) as [q2 y2]. cbn [snd] in *. intros JY. apply in_app_iff in JY as [JY|JY].
    + destruct (AO JY) as (_ & P). unfold poll_action in P. destruct (q_con q) as [|[[x' p'] s'] r] eqn:QC; [destruct (take_first _ _) as [[? ?]|]; discriminate|]. injection P as -> -> ->.
      destruct (cons_once C rnd _ _ (td_ex t) K) as (_ & CO). specialize (CO H). rewrite QC in CO. unfold cons_of in CO. cbn in CO. rewrite N.eqb_refl in CO. discriminate.
    + apply IH; [|exact JY]. rewrite tds_app. intros E. apply app_eq_nil in E as (E & _). contradiction.
  - (* bytes *)
    assert (SP : forall os q, In (YAction (ATeardown t)) (snd (run q os)) -> exists a b, os = a ++ QPollAction :: b /\ snd (q_step C Q W B rnd (fst (run q a)) QPollAction) = [YAction (ATeardown t)]).
    { clear. induction os as [|o os IH]; intros q J; [destruct J|]. cbn [q_run] in J. pose proof (action_out C Q W B rnd q o (ATeardown t)) as AO. destruct (q_step C Q W B rnd q o) as [q1 y1] eqn:ST. specialize (IH q1). destruct (run q1 os) as [q2 y2] eqn:R. cbn [snd] in *. apply in_app_iff in J as [J|J].
      - destruct (AO J) as (-> & P). exists [], os. split; [reflexivity|]. cbn. destruct (poll_action q) as [qq r]. cbn [snd] in P. subst r. reflexivity.
      - destruct (IH J) as (a & b & -> & E). exists (o :: a), b. split; [reflexivity|]. cbn [q_run]. rewrite ST. destruct (run q1 a). exact E. }
    destruct (SP os1 start J) as (a & b & -> & E). pose proof (good_run C Q W B rnd a _ (good_new C rnd e kr I)) as G. apply (after_teardown C Q W B rnd _ (b ++ os2) t G E to bs).
    assert (EQ : fst (run start (a ++ QPollAction :: b)) = fst (run (fst (q_step C Q W B rnd (fst (run start a)) QPollAction)) b)).
    { rewrite run_app. cbn [fst q_run]. destruct (q_step C Q W B rnd (fst (run start a)) QPollAction) as [q1 y1]. cbn [fst]. destruct (run q1 b). reflexivity. }
    rewrite EQ in JY. rewrite run_app. cbn [snd]. apply in_app_iff. now right.
Qed.

(** ** C89: reports on exchanges *)
(** of each exchange at most one report is seen, unless the driver puts it back *)
Theorem C89_reported_once : ep_new C t0 = Some e -> forall os x, let about ev := match ev with EvExchange y _ _ _ => y =? x | _ => false end in
  (length (filter about (flat_map (fun y => match y with YEvent ev => [ev] | _ => [] end) (snd (run start os)))) <=
   1 + length (filter about (flat_map (fun o => match o with QRequeue ev _ => [ev] | _ => [] end) os)))%nat.
Proof. intros N os x. exact (once_seen C Q W B rnd t0 e kr os x N). Qed.
(** success of a push/pull or a reliable ping is reported only after the peer's
    answer, ended by the end of its stream, was handed to the endpoint *)
Theorem C89_success_was_answered : ep_new C t0 = Some e -> forall os x p k,
  In (YEvent (EvExchange x p true k)) (snd (run start os)) ->
  (exists now, In (QRequeue (EvExchange x p true k) now) os) \/ k = XUserMessage \/
  exists ev now data at_, In (Some x, EStreamEv ev now) (q_log (fst (run start os))) /\ In (QData x data true at_) os /\
    match k, ev with XPushPull, SEReply _ _ _ _ _ | XReliablePing, SEAcked _ _ => True | _, _ => False end.
Proof.
  intros N os x p k J. destruct (success_earned C Q W B rnd t0 e kr os x p k N J) as [H|[H|(o & H & A)]]; [now left|right; now left|right; right].
  destruct k; cbn in A; try contradiction.
  - destruct A as (p1 & st & us & jn & sid & now & ->). destruct (C85_answers_wait_for_end N os _ _ _ H ltac:(discriminate)) as (x' & d & a & E & D). injection E as <-. exists (SEReply p1 st us jn sid), now, d, a. auto.
  - destruct A as (s & t & now & ->). destruct (C85_answers_wait_for_end N os _ _ _ H ltac:(discriminate)) as (x' & d & a & E & D). injection E as <-. exists (SEAcked s t), now, d, a. auto.
Qed.
(** an exchange the driver asked for and that ended, while the node did not
    leave, has been reported, with its peer and its kind, once there are no more
    events *)
Theorem C89_end_is_reported : ep_new C t0 = Some e -> forall os1 os2 x m k,
  let q := fst (run start os1) in let q' := fst (run q os2) in
  aget x (q_ex q) = Some m -> x_kind m = Some k -> (forall now fw, ~ In (QLeave now fw) os2) -> aget x (q_ex q') = None ->
  snd (q_step C Q W B rnd q' QPollEvent) = [YNone] ->
  exists ok, In (YEvent (EvExchange x (x_peer m) ok k)) (snd (run start (os1 ++ os2))).
Proof.
  intros N os1 os2 x m k q q' M K NL GN DR. pose proof (einv_new C _ _ N) as I. pose proof (good_new C rnd e kr I) as G0. pose proof (good_run C Q W B rnd os1 _ G0) as G. fold q in G.
  destruct (run_books C Q W B rnd (fun _ => false) ltac:(discriminate) os1 _ G0) as (TG & _). specialize (TG (Forall_nil _)).
  destruct (end_reported C Q W B rnd os2 q x m k G M K NL GN TG) as (ok & J). exists ok.
  destruct (run_books C Q W B rnd (exactly x (x_peer m) ok k) (exactly_x _ _ _ _) (os1 ++ os2) _ G0) as (_ & _ & _ & l & L & EQ).
  assert (EF : fst (run start (os1 ++ os2)) = q') by (rewrite run_app; reflexivity). rewrite EF in L, EQ. cbn [coord_new q_log app] in L.
  rewrite (drained_kind C Q W B rnd (exactly x (x_peer m) ok k) q' ltac:(reflexivity) DR) in EQ. cbn [length] in EQ.
  assert (P : (0 < length (filter (exactly x (x_peer m) ok k) (made l)))%nat) by (apply filter_pos; exists (EvExchange x (x_peer m) ok k); split; [apply in_made; exists x; rewrite <- L; exact J|now apply exactly_eq]).
  assert (P' : (0 < length (filter (exactly x (x_peer m) ok k) (evs_in (snd (run start (os1 ++ os2))))))%nat) by lia.
  apply filter_pos in P' as (ev & JE & XE). apply exactly_eq in XE. subst ev. now apply in_evs.
Qed.

(** ** C90: leaving *)
(** after a node leaves it opens no connection any more *)
Theorem C90_no_connect_after_leave : ep_new C t0 = Some e -> forall os1 now fw os2 x p sid,
  ~ In (YAction (AConnect x p sid)) (snd (run (fst (run start (os1 ++ [QLeave now fw]))) os2)).
Proof.
  intros N os1 now fw os2 x p sid. rewrite run_app. cbn [fst]. rewrite run_one. pose proof (good_run C Q W B rnd os1 _ (good_new C rnd e kr (einv_new C _ _ N))) as G.
  pose proof (good_step C Q W B rnd (QLeave now fw) _ G) as G1. apply down_run; [exact G1|]. cbn [q_step fst]. now apply (down_leave C Q W B rnd).
Qed.
(** and the exchanges it had begun send nothing any more *)
Theorem C90_begun_fall_silent : ep_new C t0 = Some e -> forall os1 now fw os2 x m,
  aget x (q_ex (fst (run start os1))) = Some m -> x_outbound m = true ->
  forall to bs, ~ In (YBytes x to bs) (snd (run (fst (run start (os1 ++ [QLeave now fw]))) os2)).
Proof.
  intros N os1 now fw os2 x m M O. rewrite run_app. cbn [fst]. rewrite run_one. cbn [q_step fst]. pose proof (good_run C Q W B rnd os1 _ (good_new C rnd e kr (einv_new C _ _ N))) as G.
  exact (leave_silent C Q W B rnd now fw _ os2 G x m M O).
Qed.

(** ** C91: after the encryption options change, bytes go out only for
    connections opened since, and what was received before is dropped *)
Theorem C91_keys_cut_off : ep_new C t0 = Some e -> forall os1 kr' os2 x to bs, let q := fst (run start os1) in
  q_kr q <> kr' -> In (YBytes x to bs) (snd (run (fst (run start (os1 ++ [QEncrypt kr']))) os2)) -> q_next q <= x.
Proof.
  intros N os1 kr' os2 x to bs q NE. rewrite run_app. cbn [fst]. rewrite run_one. cbn [q_step fst]. pose proof (good_run C Q W B rnd os1 _ (good_new C rnd e kr (einv_new C _ _ N))) as G. now apply encrypt_silent.
Qed.
Theorem C91_keys_drop_received : forall os1 kr', let q := fst (run start os1) in q_kr q <> kr' ->
  let q' := fst (run start (os1 ++ [QEncrypt kr'])) in q_ing q' = [] /\ q_out q' = [] /\ q_kr q' = kr' /\
  forall x b, aget x (q_conns q') = Some b -> br_failed b = true.
Proof.
  intros os1 kr' q NE q'. unfold q'. rewrite run_app. cbn [fst]. rewrite run_one. cbn [q_step fst]. destruct (encrypt_shape kr' q NE) as (A1 & A2 & A3 & A4 & A5). auto.
Qed.

(** ** C92: limits *)
Theorem C92_inbound_bounded : ep_new C t0 = Some e -> forall os max, qc_max_in Q = Some max ->
  blen (filter (fun p => negb (x_outbound (snd p))) (q_ex (fst (run start os)))) <= max.
Proof. intros N os max M. apply (in_run C Q W B rnd os start max (good_new C rnd e kr (einv_new C _ _ N)) M). cbn. lia. Qed.
Theorem C92_ingress_bounded : forall os, blen (q_ing (fst (run start os))) <= 8192.
Proof. intros os. apply (ing_run C Q W B rnd os start). cbn. discriminate. Qed.

(** ** C93: the endpoint inside is an endpoint *)
(** it is where the calls logged for it lead, so everything proved of endpoints
    (C35 to C57 and others) holds of it *)
Theorem C93_endpoint_inside : ep_new C t0 = Some e -> forall os, let q := fst (run start os) in
  q_ep q = fst (ep_run C e (map snd (q_log q))) /\ reach C (q_ep q).
Proof.
  intros N os q. destruct (run_books C Q W B rnd (fun _ => false) ltac:(discriminate) os _ (good_new C rnd e kr (einv_new C _ _ N))) as (_ & (l & L & E) & _). fold q in L, E. cbn [coord_new q_log q_ep app] in L, E.
  rewrite <- L in E. split; [exact E|]. exists t0, e, (map snd (q_log q)). auto.
Qed.
(** a dial is for the coordinator alone, and the states its code calls
    impossible are not reached *)
Theorem C93_no_dial_surfaces : ep_new C t0 = Some e -> forall os, (forall id p d, ~ In (YEvent (EvDial id p d)) (snd (run start os))) /\ q_panic (fst (run start os)) = false.
Proof.
  intros N os. split.
  - intros id p d. generalize start as q. induction os as [|o os IH]; intros q; [intros []|]. cbn [q_run].
    assert (H : ~ In (YEvent (EvDial id p d)) (snd (q_step C Q W B rnd q o))).
    { clear IH. destruct o; cbn [q_step]; try (intros []; fail).
      - destruct (accept C Q from now q) as [q1 [r|]]; cbn; intros [|[]]; discriminate.
      - destruct (CoordModel.start _ _ _ _ _ _ _ _ _) as [q1 [r|]]; cbn; intros [|[]]; discriminate.
      - destruct (CoordModel.start _ _ _ _ _ _ _ _ _) as [q1 [r|]]; cbn; intros [|[]]; discriminate.
      - destruct (CoordModel.start _ _ _ _ _ _ _ _ _) as [q1 [r|]]; cbn; intros [|[]]; discriminate.
      - destruct (poll_bytes q) as [q1 [[[r s] t]|]]; cbn; intros [|[]]; discriminate.
      - destruct (poll_action q) as [q1 [r|]]; cbn; intros [|[]]; discriminate.
      - unfold poll_event. assert (K : forall n q, snd (poll_event_loop C n q) <> Some (EvDial id p d)).
        { clear. induction n as [|n IH]; intros q; [discriminate|]. cbn [poll_event_loop]. rewrite call_eq. cbn [ep_step snd]. destruct (k_ev (e_core (q_ep q))) as [|ev r]; [discriminate|]. destruct ev; try discriminate. apply IH. }
        specialize (K (S (length (k_ev (e_core (q_ep q))))) q). destruct (poll_event_loop C _ q) as [q1 [r|]]; cbn in *; intros [Y|[]]; congruence.
      - destruct (poll_ingress q) as [q1 [r|]]; cbn; intros [|[]]; discriminate.
      - destruct (plain o); [|intros []]. destruct (call C None o _) as [q1 outs]. cbn. intros J. apply in_map_iff in J as (y & Y & _). discriminate. }
    destruct (q_step C Q W B rnd q o) as [q1 y1]. specialize (IH q1). destruct (run q1 os) as [q2 y2]. cbn [snd] in *. rewrite in_app_iff. tauto.
  - destruct (good_run C Q W B rnd os _ (good_new C rnd e kr (einv_new C _ _ N))) as (h & c & I). apply I.
Qed.

(** ** C94: a connection that is lost or cannot be opened takes its exchange
    with it at once, and nothing more is sent for it *)
Theorem C94_lost_is_gone : ep_new C t0 = Some e -> forall os1 x now o os2, (o = QLost x now \/ o = QDialFailed x now) -> In x (akeys (q_conns (fst (run start os1)))) ->
  let q := fst (run start (os1 ++ [o])) in
  ~ In x (akeys (q_conns q)) /\ ~ In x (akeys (q_ex q)) /\ forall to bs, ~ In (YBytes x to bs) (snd (run q os2)).
Proof.
  intros N os1 x now o os2 O L q. pose proof (good_run C Q W B rnd os1 _ (good_new C rnd e kr (einv_new C _ _ N))) as G.
  assert (E : exists r, q = on_failure C Q W B rnd r x now (fst (run start os1))) by (unfold q; rewrite run_app; cbn [fst]; rewrite run_one; destruct O as [->| ->]; cbn [q_step fst]; eauto).
  destruct E as (r & E). destruct (failure_gone C Q W B rnd r x now _ G L) as (A1 & A2 & A3 & A4). cbv zeta in *. rewrite <- E in *. clear E. split; [now apply aget_none|]. split; [now apply aget_none|]. intros to bs.
  apply (silent_from C Q W B rnd (fun y => y = x) q os2 A4); [|reflexivity]. intros y ->. split; [|split; [exact A3|intros b Y; congruence]].
  pose proof (good_step C Q W B rnd o _ G) as G1. assert (MT : q_next (fst (run start os1)) <= q_next q).
  { destruct (step_meta C Q W B rnd (fst (run start os1)) o (good_nx C _ G)) as [NX _ _]. unfold q. rewrite run_app. cbn [fst]. rewrite run_one. exact NX. }
  destruct G as (h & c & K). destruct (aget x (q_conns (fst (run start os1)))) as [b|] eqn:GB; [|apply aget_none in GB; contradiction]. pose proof (live_lt _ _ _ _ _ _ _ _ (proj1 K) GB). lia.
Qed.
End Coordinator.

(** ** Concrete cases *)
(** node 1 joins through node 2 with everything encrypted and labelled: the
    hypotheses of C85, C88, C89 and C93 hold of this history, the answer of node
    2 was acted on, and the report follows *)
Example C89_join :
  seen_of (qe 1 (Some tr_s) qe_join) = [YId 1; YAction (AConnect 0 102 1); YAction (ATeardown (TShutdown 0)); YAction (ATeardown (TClose 0)); YEvent (EvExchange 0 102 true XPushPull)] /\
  existsb (fun p => match p with (Some 0, EStreamEv (SEReply _ _ _ _ _) _) => true | _ => false end) (q_log (fst (qe 1 (Some tr_s) qe_join))) = true /\
  aget 0 (q_ex (fst (qe 1 (Some tr_s) qe_open))) <> None /\ aget 0 (q_ex (fst (qe 1 (Some tr_s) qe_join))) = None /\
  snd (q_step (qe_cfg 1) qe_q ew toy qe_rnd (fst (qe 1 (Some tr_s) qe_join)) QPollEvent) = [YNone] /\
  negb (blen qe_reply =? 0) = true.
Proof. repeat split; try (vm_compute; reflexivity). vm_compute. discriminate. Qed.
(** without the end of node 1's stream node 2 sends only its label, though the
    whole request has come; with it, it answers, C85 *)
Example C85_no_end_no_answer :
  let os := [QAccept 101 11; QData 0 (said (qe 1 (Some tr_s) qe_open)) false 12] ++ qe_polls in
  said (qe 2 (Some tr_r) os) = [12; 1; 97] /\ existsb (fun p => match p with (_, EStreamEv _ _) => true | _ => false end) (q_log (fst (qe 2 (Some tr_r) os))) = false /\
  existsb (fun p => match p with (Some 0, EStreamEv (SERequest _ _ _ _ _) _) => true | _ => false end) (q_log (fst (qe 2 (Some tr_r) qe_answer))) = true.
Proof. vm_compute. auto. Qed.
(** a stream with something to send, C86 *)
Example C86_case : snd (s_transmit 10 (stream_outbound 1 102 101 65536 OKUserMessage [9; 9] 100)) = [[9; 9]].
Proof. vm_compute. reflexivity. Qed.
(** an exchange that is under way at one timeout is gone at the one that passes
    its deadline, and is reported as failed, C87, C89 *)
Example C87_case :
  (match aget 0 (q_conns (fst (qe 1 None (qe_open ++ [QTimeout 9000])))) with Some b => br_deadline b = 10010 | None => False end) /\
  poll_deadline None (fst (qe 1 None (qe_open ++ [QTimeout 9000]))) = Some 10010 /\
  q_conns (fst (qe 1 None (qe_open ++ [QTimeout 10010]))) = [] /\
  seen_of (qe 1 None (qe_open ++ [QTimeout 10010] ++ qe_polls)) = [YId 1; YAction (AConnect 0 102 1); YAction (ATeardown (TShutdown 0)); YAction (ATeardown (TAbort 0)); YEvent (EvExchange 0 102 false XPushPull)].
Proof. vm_compute. repeat split. Qed.
(** the keys change while a push/pull is under way: only the one begun after it
    sends, and the first fails; the driver is told twice to abort, C88, C91 *)
Definition qe_cut := [QPushPull 102 true 10; QEncrypt (Some tr_s); QPushPull 102 true 12; QPollAction; QPollBytes; QPollBytes; QTimeout 13; QPollAction; QPollAction; QPollAction; QPollEvent; QPollEvent; QPollEvent; QPollEvent].
Example C91_case : seen_of (qe 1 None qe_cut) = [YId 1; YId 2; YAction (AConnect 1 102 2); YAction (ATeardown (TShutdown 0)); YAction (ATeardown (TAbort 0)); YAction (ATeardown (TAbort 0)); YEvent (EvExchange 0 102 false XPushPull)] /\
  flat_map (fun y => match y with YBytes x _ _ => [x] | _ => [] end) (snd (qe 1 None qe_cut)) = [1] /\
  q_kr (fst (qe 1 None [QPushPull 102 true 10])) <> Some tr_s /\ negb (blen (q_out (fst (qe 1 None [QPushPull 102 true 10]))) =? 0) = true.
Proof. repeat split; try (vm_compute; reflexivity). vm_compute. discriminate. Qed.
(** a node leaves while a push/pull is under way: nothing of it is sent, C90 *)
Definition qe_leave := [QPushPull 102 true 10; QPollAction; QLeave 11 None] ++ qe_polls.
Example C90_case : said (qe 1 None qe_leave) = [] /\ existsb (fun y => match y with YAction (ATeardown (TAbort 0)) => true | _ => false end) (snd (qe 1 None qe_leave)) = true /\
  negb (blen (said (qe 1 None ([QPushPull 102 true 10; QPollAction] ++ qe_polls))) =? 0) = true /\
  (match aget 0 (q_ex (fst (qe 1 None [QPushPull 102 true 10; QPollAction]))) with Some m => x_outbound m = true | None => False end).
Proof. vm_compute. repeat split. Qed.
(** the third connection of two allowed is refused, C92 *)
Example C92_case : snd (qe 1 None [QAccept 102 10; QAccept 102 10; QAccept 102 10]) = [YId 0; YId 1; YNone] /\
  blen (q_ex (fst (qe 1 None [QAccept 102 10; QAccept 102 10; QAccept 102 10]))) = 2.
Proof. vm_compute. repeat split. Qed.
(** a connection lost with bytes waiting, C94 *)
Definition qe_lost := [QPushPull 102 true 10; QPollAction; QLost 0 11] ++ qe_polls.
Example C94_case : seen_of (qe 1 None qe_lost) = [YId 1; YAction (AConnect 0 102 1); YAction (ATeardown (TShutdown 0)); YAction (ATeardown (TAbort 0)); YEvent (EvExchange 0 102 false XPushPull)] /\ said (qe 1 None qe_lost) = [] /\
  akeys (q_conns (fst (qe 1 None [QPushPull 102 true 10; QPollAction]))) = [0].
Proof. vm_compute. repeat split. Qed.

(** ** C95: what a report does not say *)
Lemma in_run_app C Q W B rnd q a b y : In y (snd (q_run C Q W B rnd q (a ++ b))) <-> In y (snd (q_run C Q W B rnd q a)) \/ In y (snd (q_run C Q W B rnd (fst (q_run C Q W B rnd q a)) b)).
Proof. rewrite run_app. cbn [snd]. apply in_app_iff. Qed.
Lemma fst_run_app C Q W B rnd q a b : fst (q_run C Q W B rnd q (a ++ b)) = fst (q_run C Q W B rnd (fst (q_run C Q W B rnd q a)) b).
Proof. now rewrite run_app. Qed.
(** a user message is reported as delivered though not one byte of it ever goes
    out: the peer ends its side first, so the exchange counts as complete with
    its bytes still queued (streams/mod.rs, [reap]), and the queue is then
    dropped when the keys change (event/mod.rs:139-146 documents [Succeeded] as
    validated end to end) *)
Definition qe_before := [QUserMsg 102 [1; 2; 3] 10; QPollAction; QData 0 [] true 11; QPollEvent; QPollEvent].
Theorem C95_succeeded_means_sent_refuted : exists C Q W B rnd t0 e kr os x p, ep_new C t0 = Some e /\
  In (YEvent (EvExchange x p true XUserMessage)) (snd (q_run C Q W B rnd (coord_new e kr) os)) /\
  (forall ev now, ~ In (QRequeue ev now) os) /\
  forall os2 y to bs, y = x -> ~ In (YBytes y to bs) (snd (q_run C Q W B rnd (coord_new e kr) (os ++ os2))).
Proof.
  exists (qe_cfg 1), qe_q, ew, toy, qe_rnd, 0, (qe_new 1), None, (qe_before ++ [QEncrypt (Some tr_s)]), 0, 102. split; [apply qe_new_ok|]. split; [vm_compute; tauto|]. split.
  { intros ev now J. cbn [qe_before app In] in J. repeat (destruct J as [J|J]; [discriminate|]). exact J. }
  intros os2 y to bs -> J. rewrite in_run_app in J. destruct J as [J|J].
  - assert (F : forallb (fun y => match y with YBytes _ _ _ => false | _ => true end) (snd (q_run (qe_cfg 1) qe_q ew toy qe_rnd (coord_new (qe_new 1) None) (qe_before ++ [QEncrypt (Some tr_s)]))) = true) by (vm_compute; reflexivity).
    rewrite forallb_forall in F. now apply F in J.
  - pose proof (C91_keys_cut_off (qe_cfg 1) qe_q ew toy qe_rnd 0 (qe_new 1) None (proj1 qe_new_ok) qe_before (Some tr_s) os2 0 to bs) as H. cbv zeta in H.
    assert (K : q_kr (fst (q_run (qe_cfg 1) qe_q ew toy qe_rnd (coord_new (qe_new 1) None) qe_before)) = None) by (vm_compute; reflexivity).
    assert (X : q_next (fst (q_run (qe_cfg 1) qe_q ew toy qe_rnd (coord_new (qe_new 1) None) qe_before)) = 1) by (vm_compute; reflexivity).
    rewrite K, X in H. specialize (H ltac:(discriminate) J). lia.
Qed.
(** a push/pull asked for after the node left gets an id like any other, but no
    connection is ever opened for it and its entry stays, whatever comes after *)
Theorem C95_every_id_is_dialled_refuted : exists C Q W B rnd t0 e kr os id, ep_new C t0 = Some e /\
  snd (q_step C Q W B rnd (fst (q_run C Q W B rnd (coord_new e kr) os)) (QPushPull 102 true 12)) = [YId id] /\
  let q := fst (q_run C Q W B rnd (coord_new e kr) (os ++ [QPushPull 102 true 12])) in
  aget id (q_kinds q) = Some XPushPull /\ q_ex q = [] /\ q_dials q = [] /\ forall os2 x p sid, ~ In (YAction (AConnect x p sid)) (snd (q_run C Q W B rnd q os2)).
Proof.
  exists (qe_cfg 1), qe_q, ew, toy, qe_rnd, 0, (qe_new 1), None, ([] ++ [QLeave 11 None]), 1. split; [apply qe_new_ok|]. split; [vm_compute; reflexivity|]. split; [vm_compute; reflexivity|]. split; [vm_compute; reflexivity|]. split; [vm_compute; reflexivity|].
  intros os2 x p sid J. pose proof (C90_no_connect_after_leave (qe_cfg 1) qe_q ew toy qe_rnd 0 (qe_new 1) None (proj1 qe_new_ok) [] 11 None ([QPushPull 102 true 12] ++ os2) x p sid) as H.
  rewrite in_run_app in H. apply H. right. rewrite fst_run_app in J. exact J.
Qed.
(** and bytes of an exchange already reported as done go out after the node left *)
Theorem C95_left_node_is_silent_refuted : exists C Q W B rnd t0 e kr os1 now os2 x to bs, ep_new C t0 = Some e /\
  In (YBytes x to bs) (snd (q_run C Q W B rnd (fst (q_run C Q W B rnd (coord_new e kr) (os1 ++ [QLeave now None]))) os2)).
Proof.
  exists (qe_cfg 1), qe_q, ew, toy, qe_rnd, 0, (qe_new 1), None, [QUserMsg 102 [1; 2; 3] 10; QPollAction; QData 0 [] true 11], 12, [QPollBytes], 0, 102, [12; 1; 97; 7; 9; 5; 10; 3; 1; 2; 3].
  split; [apply qe_new_ok|]. vm_compute. now left.
Qed.

Print Assumptions C85_answers_wait_for_end.
Print Assumptions C86_drained_in_one_turn.
Print Assumptions C87_deadlines_enforced.
Print Assumptions C88_teardown_order.
Print Assumptions C88_connect_once.
Print Assumptions C88_nothing_after_teardown.
Print Assumptions C89_reported_once.
Print Assumptions C89_success_was_answered.
Print Assumptions C89_end_is_reported.
Print Assumptions C90_no_connect_after_leave.
Print Assumptions C90_begun_fall_silent.
Print Assumptions C91_keys_cut_off.
Print Assumptions C91_keys_drop_received.
Print Assumptions C92_inbound_bounded.
Print Assumptions C92_ingress_bounded.
Print Assumptions C93_endpoint_inside.
Print Assumptions C93_no_dial_surfaces.
Print Assumptions C94_lost_is_gone.
Print Assumptions C95_succeeded_means_sent_refuted.
Print Assumptions C95_every_id_is_dialled_refuted.
Print Assumptions C95_left_node_is_silent_refuted.
