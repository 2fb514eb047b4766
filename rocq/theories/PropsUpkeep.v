(** Properties C36, C42-C44 (as seen through the timer handler and when leaving)
    and C66-C72: vetoes, metadata, fresh suspicions, the timer handler, gossip
    rounds, user data, and the push/pull listing. *)
From Coq Require Import Permutation.
From Verif Require Import Base BaseFacts CodecModel CodecSpec CodecFacts MsgModel EndpointModel MapFacts CoreFacts CoreInv CoreSteps CoreTrans CoreHist CoreSpec
  EndpointSteps EndpointInv EndpointFacts EndpointHist EndpointRuns EndpointAnswers EndpointProbes EndpointSent EndpointUpkeep EndpointUser PropsCore PropsEndpoint
  WireModel WireSpec WireFacts WireSizes PropsWire.
Local Open Scope N_scope.

(** * C42 *)
(** A node that has left never asks the driver to dial anyone, not even for an
    exchange it had asked for before and the driver had not picked up yet. *)
Theorem C42_no_dials_after_leave : forall C e os, reach C e -> runs e = false ->
  forall id peer d, ~ In (OEvent (EvDial id peer d)) (snd (ep_run C e os)).
Proof.
  intros C e os R RU id peer d H. pose proof (stopped_run_dials C os e (reach_inv C e R) RU (reach_quietened C e R RU)) as X.
  assert (existsb asks (snd (ep_run C e os)) = true) as Y; [|congruence]. apply existsb_exists. eexists. split; [exact H|reflexivity].
Qed.
Print Assumptions C42_no_dials_after_leave.
(** the dial for member 3 is asked for when the node keeps running, and not when
    it leaves before the driver looks *)
Example C42_no_dials_after_leave_ex :
  let polls := repeat EPollEvent 8 in let dials x := filter (fun o => match o with OEvent (EvDial _ _ _) => true | _ => false end) x in
  option_map (fun e => dials (snd (ep_run ee_cfg e polls))) (ee (ee_joined ++ [EPushPull 103 true 50])) = Some [OEvent (EvDial 1 103 10050)] /\
  option_map (fun e => (runs e, dials (snd (ep_run ee_cfg e polls)))) (ee ee_left) = Some (false, []).
Proof. vm_compute. auto. Qed.

(** * C43 *)
(** The farewells go, once each, to exactly the members other than the node
    itself that it held Alive or Suspect when [leave] was called. *)
Theorem C43_farewells_to_the_live : forall C e now fw, reach C e -> runs e = true ->
  map (fun t => match t with TPacket to _ | TCompound to _ => to end) (e_tx (fst (ep_step C e (ELeave now fw)))) =
  map (fun p => ns_addr (m_server (snd p)))
    (filter (fun p => negb (fst p =? c_id C) && match m_state (snd p) with PAlive | PSuspect => true | _ => false end) (k_mem (e_core e))).
Proof.
  intros C e now fw R RU. destruct (C43_farewells C e now fw R RU) as [H _]. cbv zeta in H. rewrite H. apply (live_leave C now e (reach_inv C e R) RU).
Qed.
Print Assumptions C43_farewells_to_the_live.
Example C43_farewells_to_the_live_ex :
  let os := ee_joined ++ [EPacket 102 (MSuspect 3 3 2) 20; EPacket 102 (MDead 3 4 2) 20] in
  ex os (fun e => map (fun p => (fst p, m_state (snd p))) (k_mem (e_core e))) = Some [(1, PAlive); (4, PDead); (2, PAlive); (3, PSuspect)] /\
  ex (os ++ [ELeave 60 None]) e_tx = Some [TPacket 102 (MDead 5 1 1); TPacket 103 (MDead 5 1 1)].
Proof. vm_compute. auto. Qed.

(** * C66 *)
(** What the application's alive delegate refuses never enters the membership
    table, and what is in it was accepted: with the delegate set before anyone
    joined, every other member's description satisfies it, always. *)
Theorem C66_admitted_members : forall C t0 e0 f os id m, ep_new C t0 = Some e0 -> (forall g, ~ In (EAliveDelegate g) os) ->
  aget id (k_mem (e_core (fst (ep_run C e0 (EAliveDelegate f :: os))))) = Some m -> id <> c_id C -> f (m_server m) = true.
Proof.
  intros C t0 e0 f os id m N NA G NE. pose proof (einv_new C t0 e0 N) as I0.
  assert (einv C (fst (ep_step C e0 (EAliveDelegate f)))) as I1 by apply einv_op, I0.
  assert (allowed C f (e_core (fst (ep_step C e0 (EAliveDelegate f))))) as A.
  { split; [reflexivity|]. intros i x NI H. exfalso. assert (e_core e0 = core_new C t0) as E0.
    { unfold ep_new in N. destruct (cfg_ok C); [|discriminate]. apply Some_inj in N. rewrite <- N. unfold refresh_cache. match goal with |- context [if ?b then _ else _] => destruct b end; reflexivity. }
    unfold rec_at in H. cbn [ep_step fst act e_core e_set_core core_step k_mem k_set_adm] in H. rewrite E0 in H. 
    change (aget i [(c_id C, mkM (mkNS (c_id C) (c_addr C) PAlive (c_meta0 C) (c_pv C) (c_dv C)) (c_inc0 C) t0 PAlive None 1)] = Some x) in H. cbn [aget] in H. apply not_eq_sym in NI.
    destruct (N.eqb_spec (c_id C) i); [contradiction|]. destruct (N.eqb_spec i (c_id C)); congruence. }
  pose proof (allowed_ops C f os _ I1 NA A) as [_ H]. eapply H; [exact NE|]. unfold rec_at. rewrite ep_run_fst in *. exact G.
Qed.
Print Assumptions C66_admitted_members.
(** A refused alive message has no effect at all. *)
Theorem C66_refused_alive : forall C e from al now, reach C e ->
  k_adm (e_core e) (mkNS (al_id al) (al_addr al) PAlive (al_meta al) (al_pv al) (al_dv al)) = false ->
  ep_step C e (EPacket from (MAlive al) now) = (e, []).
Proof.
  intros C e from al now R A. cbn [ep_step]. unfold handle_packet. destruct (runs e) eqn:RU; cbn [negb]; [|reflexivity]. f_equal.
  unfold act. change (k_adm (e_core e) (alive_ns al PAlive) = false) in A.
  match goal with |- e_set_core ?k e = e => assert (k = e_core e) as -> end; [|destruct e; reflexivity].
  change (process_alive C al now (e_core e) = e_core e). unfold process_alive. unfold runs in RU. rewrite RU, A. reflexivity.
Qed.
Print Assumptions C66_refused_alive.
(** A push/pull exchange the merge delegate refuses has no effect either: the
    stream is closed and no answer is given. *)
Theorem C66_refused_merge : forall C e ev peer states user join sid now, runs e = true ->
  (ev = SEReply peer states user join sid \/ ev = SERequest peer states user join sid) ->
  e_merge e (map (fun p => mkNS (pn_id p) (pn_addr p) (pn_state p) (pn_meta p) (pn_pv p) (pn_dv p)) states) = false ->
  ep_step C e (EStreamEv ev now) = (e, [OClose]).
Proof.
  intros C e ev peer states user join sid now RU H M. cbn [ep_step]. change (e_merge e (map pns_ns states) = false) in M.
  destruct H as [-> | ->]; cbn [handle_stream_event]; rewrite RU, M; reflexivity.
Qed.
Print Assumptions C66_refused_merge.
(** Delegates stay in force until they are replaced. *)
Theorem C66_delegates_stay : forall C e f g os, reach C e ->
  (forall h, ~ In (EAliveDelegate h) os) -> (forall h, ~ In (EMergeDelegate h) os) ->
  let e' := fst (ep_run C e (EAliveDelegate f :: EMergeDelegate g :: os)) in k_adm (e_core e') = f /\ e_merge e' = g.
Proof.
  intros C e f g os R NA NM. cbv zeta. rewrite !ep_run_fst. cbn [fold_left]. set (e1 := fst (ep_step C (fst (ep_step C e (EAliveDelegate f))) (EMergeDelegate g))).
  assert (einv C e1) as I1 by (apply einv_op, einv_op, reach_inv, R). assert (k_adm (e_core e1) = f) as A by reflexivity. assert (e_merge e1 = g) as M by reflexivity. clearbody e1.
  split; [|rewrite <- M, <- (merge_stays C os e1 NM), ep_run_fst; reflexivity].
  clear R M NM. revert e1 I1 A. induction os as [|o os IH]; intros e1 I1 A; [exact A|]. cbn [fold_left]. apply IH; [intros h H; apply (NA h); right; exact H|apply einv_op, I1|].
  destruct (step_noadm C e1 o I1) as (ops & E & F); [intros h ->; apply (NA h); left; reflexivity|]. rewrite E.
  rewrite <- A. clear E A IH. pose proof (ei_core _ _ I1) as K. clear I1. rewrite core_run_fst. revert F K. generalize (e_core e1). clear e1 NA.
  induction ops as [|c ops IH]; intros k F K; [reflexivity|]. cbn [fold_left]. inversion F as [|? ? NC F']; subst. rewrite (IH _ F' (kinv_core_step C k c K)).
  pose proof (core_step_steps C k c K) as S. induction S as [|k1 k2 k3 S1 _ IS]; [reflexivity|]. rewrite (IS (kinv_step C _ _ _ _ K S1)). exact (adm_step C _ _ _ _ S1 NC).
Qed.
Print Assumptions C66_delegates_stay.
(** only members with an address above 102 are admitted; the exchange with 4
    unknown nodes is refused *)
Example C66_ex :
  let f s := 102 <? ns_addr s in let g (l : list nstate) := blen l <=? 1 in
  let os := EAliveDelegate f :: EMergeDelegate g :: ee_joined in
  ex os (fun e => map fst (k_mem (e_core e))) = Some [1; 4; 3] /\
  (let l := map (fun i => mkPNS 3 i (100 + i) PAlive [] 1 1) [5; 6] in
   ex os (fun e => snd (ep_step ee_cfg e (EStreamEv (SEReply 103 l [] true 9) 20))) = Some [OClose] /\
   ex (os ++ [EStreamEv (SERequest 103 l [] true 9) 20; EStreamEv (SERequest 103 (tl l) [] true 9) 21]) (fun e => map fst (k_mem (e_core e))) = Some [1; 6; 3; 4]).
Proof. vm_compute. auto. Qed.

(** * C67 *)
(** An accepted change of the node's own metadata takes effect at once: the
    own record carries it at the next incarnation, the application is told,
    the announcement waits for the next gossip round, and nobody else's record
    changes. *)
Theorem C67_metadata_takes_effect : forall C t0 os meta,
  let k := core_at C t0 os in let k' := fst (core_step C k (KMeta meta)) in
  enc_ok C -> 1 + effort C (core_new C t0) os < u64_max -> k_life k = Running -> blen meta <= c_meta_max C ->
  let s := mkNS (c_id C) (c_addr C) PAlive meta (c_pv C) (c_dv C) in
  k_inc k' = (k_inc k + 1) mod 2 ^ 32 /\
  (exists m, rec_at k' (c_id C) = Some m /\ m_server m = s /\ m_inc m = k_inc k' /\ m_state m = PAlive) /\
  (forall id, id <> c_id C -> rec_at k' id = rec_at k id) /\
  k_ev k' = k_ev k ++ [EvUpdated s] /\
  queued (c_id C, MAlive (mkAlive (k_inc k') (c_id C) (c_addr C) meta (c_pv C) (c_dv C))) k'.
Proof.
  intros C t0 os meta k k' HE L R LM s. pose proof (kinv_at C t0 os) as V. fold k in V.
  destruct (ki_local C k V) as (m & G & EI & _ & _ & _ & ST). assert (m_state m = PAlive) as EA by (destruct ST as [[_ H]|[H _]]; congruence).
  assert (k' = snd (update_meta C meta k)) as E by reflexivity.
  unfold update_meta in E. rewrite R in E. cbn [is_running negb] in E. destruct (N.ltb_spec (c_meta_max C) (blen meta)); [lia|]. cbn [snd] in E.
  set (k1 := next_inc k) in E. fold s in E. set (k2 := upd _ _ k1) in E.
  assert (forall id, rec_at k' id = if id =? c_id C then option_map (fun m => m_set_server s (m_set_inc (k_inc k1) m)) (rec_at k id) else rec_at k id) as RA.
  { intros id. rewrite E. unfold rec_at.
    change (aget id (mt_upd (c_id C) (fun m => m_set_server s (m_set_inc (k_inc k1) m)) (k_mem k)) = if id =? c_id C then option_map (fun m => m_set_server s (m_set_inc (k_inc k1) m)) (aget id (k_mem k)) else aget id (k_mem k)).
    apply aget_mt_upd. }
  split; [rewrite E; reflexivity|]. split.
  { exists (m_set_server s (m_set_inc (k_inc k1) m)). split; [rewrite RA, N.eqb_refl, G; reflexivity|]. split; [reflexivity|]. split; [rewrite E; reflexivity|exact EA]. }
  split; [intros id NE; rewrite RA; apply N.eqb_neq in NE; rewrite NE; reflexivity|]. split; [rewrite E; reflexivity|].
  rewrite E. change (queued (c_id C, MAlive (alive_of (k_inc k1) s)) (bcast C (c_id C) (MAlive (alive_of (k_inc k2) s)) k2)).
  apply (bcast_queued C _ _ (1 + effort C (core_new C t0) os)); [|exact L]. apply (kq_ext C _ k); [|reflexivity]. apply kq_run, HE.
Qed.
Print Assumptions C67_metadata_takes_effect.
(** The call answers [Err] and does nothing exactly when the node does not run
    or the metadata is longer than configured. *)
Theorem C67_metadata_refused : forall C e meta,
  if runs e && (blen meta <=? c_meta_max C)
  then ep_step C e (EMeta meta) = (act C (KMeta meta) e, [])
  else ep_step C e (EMeta meta) = (e, [OErr]).
Proof.
  intros C e meta. cbn [ep_step]. assert (act C (KMeta meta) e = e_set_core (snd (update_meta C meta (e_core e))) e) as E by reflexivity. rewrite E. unfold update_meta.
  fold (runs e). destruct (runs e); cbn [negb andb fst snd].
  - rewrite N.leb_antisym. destruct (N.ltb_spec (c_meta_max C) (blen meta)); cbn [negb fst snd]; [|reflexivity]. destruct e; reflexivity.
  - destruct e; reflexivity.
Qed.
Print Assumptions C67_metadata_refused.
Example C67_ex :
  let k' := fst (core_step ex_cfg (ex_at ex_joined) (KMeta [8; 8])) in
  k_life (ex_at ex_joined) = Running /\ k_inc k' = 6 /\ option_map (fun m => (ns_meta (m_server m), m_inc m)) (rec_at k' 1) = Some ([8; 8], 6) /\
  In (1, MAlive (mkAlive 6 1 101 [8; 8] 1 1)) (map i_b (bq_q (k_bc k'))) /\
  ex (ee_joined ++ [EMeta [9]]) (fun e => snd (ep_step ee_cfg e (EMeta (repeat 1 513)))) = Some [OErr] /\
  ex (ee_joined ++ [EMeta [9]]) (fun e => snd (ep_step ee_cfg e (EMeta (repeat 1 512)))) = Some [].
Proof. vm_compute. repeat split; tauto. Qed.
(** A message longer than the MTU is never part of a datagram, ack and nack
    answers apart. *)
Lemma parts_hold : forall ps r p, encode_parts ps = Ok r -> In p ps -> blen p <= blen r.
Proof.
  induction ps as [|a ps IH]; cbn [encode_parts]; intros r p E H; [destruct H|].
  destruct (_ <? _); [discriminate|]. destruct (encode_parts ps) as [r'|]; [|discriminate]. injection E as <-. rewrite !blen_app. destruct H as [->|H]; [lia|].
  specialize (IH r' p eq_refl H). lia.
Qed.
Theorem C44_oversize_is_never_sent : forall C W t0 e0 os t to m, c_enc C = wire_enc W ->
  encode_message W (MPing u32_max (mkNode (c_id C) (c_addr C)) (mkNode (c_id C) (c_addr C))) <> None ->
  c_inc0 C <= u32_max -> ep_new C t0 = Some e0 ->
  (In t (handed (snd (ep_run C e0 os))) \/ In t (e_tx (fst (ep_run C e0 os)))) ->
  In (to, m) (carried t) -> (forall s p, m <> MAck s p) -> (forall s, m <> MNack s) -> blen (c_enc C m) <= c_mtu C.
Proof.
  intros C W t0 e0 os t to m EC NE IN N H X NA NN. destruct (C44_datagrams_fit_on_the_wire C W t0 e0 os t EC NE IN N H) as [(a & x & -> & Y)|(b & D & L)].
  - destruct X as [X|[]]. injection X as _ <-. destruct Y as [(s & p & ->)|(s & ->)]; exfalso; [eapply NA|eapply NN]; reflexivity.
  - destruct t as [a x|a ms]; cbn [carried] in X; cbn [datagram] in D.
    + destruct X as [X|[]]. injection X as _ <-. injection D as <-. exact L.
    + apply in_map_iff in X as (y & Y & X). injection Y as _ ->. unfold encode_compound in D. destruct (_ <? _); [discriminate|]. destruct (_ <? _); [discriminate|].
      destruct (encode_parts _) as [r|] eqn:P; [|discriminate]. injection D as <-. pose proof (parts_hold _ _ (c_enc C m) P (in_map _ _ _ X)). rewrite blen_cons, blen_app in L. lia.
Qed.
Print Assumptions C44_oversize_is_never_sent.
Example C44_oversize_is_never_sent_ex :
  let C := ew_cfg 512 in c_enc C = wire_enc ew /\ encode_message ew (MPing u32_max (mkNode 65 101) (mkNode 65 101)) <> None /\
  option_map (fun e => map (fun t => blen (carried t)) (e_tx e)) (ew_run 512 (ew_joined ++ [ESchedule 11; ETimeout 300])) = Some [1; 3; 3].
Proof. split; [reflexivity|]. vm_compute. split; [discriminate|reflexivity]. Qed.
(** Metadata within its own limit may still be too long to be announced: with
    an MTU of 512 and the default limit of 512 bytes the update is accepted and
    its announcement leaves the node in no datagram, however long one waits. *)
Theorem C67_metadata_is_announced_refuted : exists C W t0 e0 os meta inc, c_enc C = wire_enc W /\ ep_new C t0 = Some e0 /\
  let e := fst (ep_run C e0 os) in let ann := MAlive (mkAlive inc (c_id C) (c_addr C) meta (c_pv C) (c_dv C)) in
  runs e = true /\ blen meta <= c_meta_max C /\ snd (ep_step C e (EMeta meta)) = [] /\
  queued (c_id C, ann) (e_core (fst (ep_step C e (EMeta meta)))) /\
  forall os' t to, In t (handed (snd (ep_run C e (EMeta meta :: os')))) -> ~ In (to, ann) (carried t).
Proof.
  destruct (ep_new (ew_cfg 512) 0) as [e0|] eqn:N; [|vm_compute in N; discriminate].
  exists (ew_cfg 512), ew, 0, e0, ew_joined, (repeat 7 (N.to_nat 512)), 6. split; [reflexivity|]. split; [exact N|]. cbv zeta.
  assert (forall A (f : ep -> A), Some (f (fst (ep_run (ew_cfg 512) e0 ew_joined))) = option_map f (ew_run 512 ew_joined)) as K by (intros; unfold ew_run; rewrite N; reflexivity).
  split; [apply some_inj; rewrite (K _ runs); vm_compute; reflexivity|]. split; [vm_compute; discriminate|].
  split; [apply some_inj; rewrite (K _ (fun e => snd (ep_step (ew_cfg 512) e (EMeta (repeat 7 (N.to_nat 512)))))); vm_compute; reflexivity|].
  split.
  - unfold queued. assert (map i_b (bq_q (k_bc (e_core (fst (ep_step (ew_cfg 512) (fst (ep_run (ew_cfg 512) e0 ew_joined)) (EMeta (repeat 7 (N.to_nat 512)))))))) =
      [(65, MAlive (mkAlive 6 65 101 (repeat 7 (N.to_nat 512)) 1 1)); (67, MAlive (mkAlive 3 67 167 [] 1 1)); (66, MAlive (mkAlive 3 66 166 [] 1 1))]) as ->.
    { apply some_inj. rewrite (K _ (fun e => map i_b (bq_q (k_bc (e_core (fst (ep_step (ew_cfg 512) e (EMeta (repeat 7 (N.to_nat 512)))))))))). vm_compute. reflexivity. }
    left. reflexivity.
  - intros os' t to H X.
    assert (forall a b e, ep_run (ew_cfg 512) e (a ++ b) = (fst (ep_run (ew_cfg 512) (fst (ep_run (ew_cfg 512) e a)) b), snd (ep_run (ew_cfg 512) e a) ++ snd (ep_run (ew_cfg 512) (fst (ep_run (ew_cfg 512) e a)) b))) as RA.
    { induction a as [|o a IH]; intros b e; [cbn; destruct (ep_run (ew_cfg 512) e b); reflexivity|]. cbn [app ep_run]. destruct (ep_step (ew_cfg 512) e o) as [e1 x1]. rewrite IH.
      destruct (ep_run (ew_cfg 512) e1 a) as [e2 x2]. cbn [fst snd]. rewrite app_assoc. reflexivity. }
    assert (In t (handed (snd (ep_run (ew_cfg 512) e0 (ew_joined ++ EMeta (repeat 7 (N.to_nat 512)) :: os'))))) as H'.
    { rewrite RA. cbn [snd]. rewrite handed_app. apply in_or_app. right. exact H. }
    pose proof (C44_oversize_is_never_sent (ew_cfg 512) ew 0 e0 _ t to _ eq_refl ltac:(vm_compute; discriminate) ltac:(vm_compute; discriminate) N (or_introl H') X ltac:(discriminate) ltac:(discriminate)) as Y.
    vm_compute in Y. apply Y. reflexivity.
Qed.
Print Assumptions C67_metadata_is_announced_refuted.

(** * C68 *)
(** The first accusation of an Alive member starts its suspicion: Suspect from
    now on, at the accused incarnation, with a timer that runs from now to the
    longest time ([c_sto]: the configured shortest and longest for the number of
    members) when independent confirmations can shorten it, and the shortest
    when the cluster is too small for any; the accuser is on the list of those
    who have spoken, and the accusation is gossiped on. *)
Theorem C68_suspicion_starts : forall C t0 os inc id from now m,
  let k := core_at C t0 os in let k' := fst (core_step C k (KSuspect inc id from now)) in
  let n := blen (k_mem k) in let kk := if c_mult C <=? n then c_mult C - 2 else 0 in
  let mn := fst (c_sto C n) in let mx := snd (c_sto C n) in
  enc_ok C -> 1 + effort C (core_new C t0) os < u64_max -> k_life k = Running -> n < 2 ^ 32 ->
  id <> c_id C -> rec_at k id = Some m -> m_state m = PAlive -> m_inc m <= inc ->
  (exists m' s, rec_at k' id = Some m' /\ m_server m' = m_server m /\ m_state m' = PSuspect /\ m_inc m' = inc /\ m_change m' = now /\
     m_susp m' = Some s /\ s_k s = kk /\ s_min s = mn /\ s_max s = mx /\ s_start s = now /\
     s_deadline s = tadd now (if kk =? 0 then mn else mx) /\ s_confirmed s = [from] /\ s_n s = 0) /\
  (forall i, i <> id -> rec_at k' i = rec_at k i) /\ k_ev k' = k_ev k /\ queued (id, MSuspect inc id from) k'.
Proof.
  intros C t0 os inc id from now m k k' n kk mn mx HE L R LN NL G ST LI. pose proof (kinv_at C t0 os) as V. fold k in V.
  assert (k' = process_suspect C inc id from now k) as E by reflexivity. unfold process_suspect in E. rewrite R in E. cbn [is_running negb] in E. unfold rec_at in G. rewrite G in E.
  destruct (N.ltb_spec inc (m_inc m)); [lia|]. pose proof (ki_rec _ _ V id m G) as [_ SH]. rewrite ST in SH, E.
  assert (m_susp m = None) as SN by (destruct (m_susp m); [contradiction SH || congruence|reflexivity]). rewrite SN in E. cbn [pstate_eqb negb] in E.
  destruct (N.eqb_spec id (c_id C)); [contradiction|]. fold n in E. change (k_n k) with n in E. rewrite (N.mod_small n two32 LN) in E.
  assert (c_sto C n = (mn, mx)) as EC by (unfold mn, mx; destruct (c_sto C n); reflexivity). rewrite EC in E. fold kk in E. unfold install_suspicion in E. rewrite G in E.
  set (s := susp_new from kk mn mx now) in E. set (k1 := k_set_sidx _ _) in E. set (k2 := bumpv _) in E.
  assert (forall i, rec_at k' i = if i =? id then option_map (fun m => m_set_state PSuspect now (m_set_inc inc (m_set_susp (Some s) m))) (rec_at k i) else rec_at k i) as RA.
  { intros i. rewrite E. unfold rec_at. cbn [bcast k_set_bc k_mem]. change (k_mem k2) with (mt_upd id (fun m => m_set_state PSuspect now (m_set_inc inc m)) (mt_upd id (m_set_susp (Some s)) (k_mem k))).
    rewrite !aget_mt_upd. destruct (i =? id); [|reflexivity]. destruct (aget i (k_mem k)); reflexivity. }
  split; [|split; [|split]].
  - eexists. exists s. split; [rewrite RA, N.eqb_refl; unfold rec_at; rewrite G; reflexivity|]. unfold s, susp_new. cbn. repeat split.
    destruct (N.ltb_spec kk 1), (N.eqb_spec kk 0); try lia; reflexivity.
  - intros i NE. rewrite RA. apply N.eqb_neq in NE. rewrite NE. reflexivity.
  - rewrite E. reflexivity.
  - rewrite E. apply (bcast_queued C _ _ (1 + effort C (core_new C t0) os)); [|exact L]. apply (kq_ext C _ k); [|reflexivity]. apply kq_run, HE.
Qed.
Print Assumptions C68_suspicion_starts.
Example C68_ex :
  let k := ex_at ex_joined in let k' := fst (core_step ex_cfg k (KSuspect 3 2 3 40)) in
  k_life k = Running /\ view (rec_at k 2) = Some (PAlive, 3, 102) /\
  option_map (fun m => (m_state m, m_inc m, m_change m, option_map (fun s => (s_k s, s_deadline s, s_confirmed s)) (m_susp m))) (rec_at k' 2)
    = Some (PSuspect, 3, 40, Some (0, 1040, [3])) /\
  (let k4 := core_at ee_cfg 0 (map (fun i => KAlive (ex_al 3 i (100 + i)) 11) [2; 3; 4; 5; 6]) in
   option_map (fun m => option_map (fun s => (s_k s, s_deadline s)) (m_susp m)) (rec_at (fst (core_step ee_cfg k4 (KSuspect 3 2 3 40))) 2) = Some (Some (2, 6040))).
Proof. vm_compute. repeat split. Qed.

(** * C69 *)
(** The timer handler catches up: whatever else was due, after a call at [now]
    nothing but a suspicion timer is due at [now] or before; after a second call
    at the same instant nothing is, so a driver that calls the handler whenever
    [poll_timeout] says so always gets past every instant. *)
Theorem C69_timer_catches_up : forall C e now t, reach C e -> runs e = true ->
  0 < c_probe_timeout C -> 0 < c_stream_timeout C -> now < DUR_MAX ->
  due_at C (fst (ep_step C e (ETimeout now))) t ->
  now < t \/ exists id m s, aget id (k_mem (e_core (fst (ep_step C e (ETimeout now))))) = Some m /\ m_state m = PSuspect /\ m_susp m = Some s /\ t = s_deadline s.
Proof.
  intros C e now t R RU PT ST L H. cbn [ep_step fst] in *. pose proof (reach_inv C e R) as I.
  destruct (clean_due C now _ t (timeout_clean C now e I (reach_paced C e R) RU PT ST L) H) as [|(id & m & s & G & S & E)]; [auto|].
  right. exists id, m, s. split; [exact G|]. split; [|auto].
  pose proof (ei_core _ _ (einv_op C e (ETimeout now) I)) as K. cbn [ep_step fst] in K. destruct (ki_rec _ _ K id m G) as [_ SH]. rewrite S in SH.
  destruct (m_state m); try reflexivity; exfalso; intuition congruence.
Qed.
Print Assumptions C69_timer_catches_up.
Theorem C69_twice_is_enough : forall C e now, reach C e -> runs e = true ->
  0 < c_probe_timeout C -> 0 < c_stream_timeout C -> now < DUR_MAX ->
  match poll_timeout (fst (ep_run C e [ETimeout now; ETimeout now])) with Some w => now < w | None => True end.
Proof.
  intros C e now R RU PT ST L. rewrite ep_run_fst. cbn [fold_left ep_step fst]. set (e2 := handle_timeout C now (handle_timeout C now e)).
  pose proof (reach_inv C e R) as I. assert (einv C e2) as I2 by exact (einv_op C _ (ETimeout now) (einv_op C e (ETimeout now) I)).
  pose proof (timeout_spec C e2 I2) as T. destruct (runs e2); [|rewrite T; exact Logic.I].
  destruct (poll_timeout e2) as [w|]; [|exact Logic.I]. exact (twice_quiet C now e w I (reach_paced C e R) RU PT ST L (proj1 T)).
Qed.
Print Assumptions C69_twice_is_enough.
(** Each of the three schedules moves on exactly when it is due: by its interval
    from the time of the call, push/pull by the interval scaled to the members. *)
Theorem C69_schedules_move_on : forall C e now, reach C e -> runs e = true ->
  let e' := fst (ep_step C e (ETimeout now)) in
  let next t every := match t with None => None | Some d => if now <? d then Some d else Some (tadd now every) end in
  e_np e' = next (e_np e) (c_probe_interval C) /\ e_ng e' = next (e_ng e) (c_gossip_interval C) /\
  e_npp e' = next (e_npp e) (push_pull_scale (c_pp_interval C) (blen (filter (fun p => negb (fst p =? c_id C) &&
    match m_state (snd p) with PAlive | PSuspect => true | _ => false end) (k_mem (e_core e'))))).
Proof.
  intros C e now R RU. cbv zeta. cbn [ep_step fst]. destruct (timeout_sched C now e (reach_inv C e R) RU) as (A & B & D). cbv zeta in *.
  split; [exact A|]. split; [exact B|]. rewrite D. unfold live_addrs, blen. rewrite map_length. reflexivity.
Qed.
Print Assumptions C69_schedules_move_on.
(** one call is not always enough: a probe that fails in it confirms a suspicion
    others had raised, which then is due at once, after the handler has already
    looked at the suspicions *)
Definition slow_cfg : cfg :=
  mkCfg 1 101 1 1 5 [7] 512 4 (fun _ => (4000000000, 24000000000)) (fun _ _ _ _ => 11381%Z) (fun _ => 4)
    8 500 30000 None (fun i => i * 7 + 3) ee_enc
    1400 65536 [] 2 1000 500 3 200 3 30000 10000 2 true.
Definition slow_ops : list eop :=
  map (fun i => EPacket (100 + i) (MAlive (ex_al 3 i (100 + i))) 10) [2; 3; 4; 5; 6] ++
  [EPacket 103 (MSuspect 3 6 4) 20; EStartProbe 20000000000; ETimeout 20000000500].
Theorem C69_once_is_enough_refuted : exists C t0 e0 os now, ep_new C t0 = Some e0 /\
  let e := fst (ep_run C e0 os) in let e' := fst (ep_step C e (ETimeout now)) in let e'' := fst (ep_step C e' (ETimeout now)) in
  runs e = true /\ 0 < c_probe_timeout C /\ 0 < c_stream_timeout C /\ now < DUR_MAX /\
  poll_timeout e = Some now /\ poll_timeout e' = Some now /\ poll_timeout e'' = None.
Proof.
  destruct (ep_new slow_cfg 0) as [e0|] eqn:N; [|vm_compute in N; discriminate]. exists slow_cfg, 0, e0, slow_ops, 20000001000. split; [exact N|].
  vm_compute in N. apply Some_inj in N. subst e0. vm_compute. repeat split.
Qed.
Print Assumptions C69_once_is_enough_refuted.
Example C69_ex :
  let os := ee_joined ++ [ESchedule 11; EPacket 102 (MSuspect 3 3 2) 20; ETimeout 520] in
  ex os (fun e => (runs e, e_np e, e_ng e, e_npp e, poll_timeout e)) = Some (true, Some 1520, Some 720, Some 30520, Some 720) /\
  ex (os ++ [ETimeout 7000]) (fun e => (e_np e, e_ng e, e_npp e, poll_timeout e, map (fun p => (fst p, m_state (snd p))) (k_mem (e_core e))))
    = Some (Some 8000, Some 7200, Some 30520, Some 7200, [(1, PAlive); (4, PSuspect); (2, PAlive); (3, PDead)]).
Proof. vm_compute. auto. Qed.
(** C36, as the driver sees it: a call of the timer handler at or after the
    deadline of a suspicion makes the member Dead, at the same incarnation (or
    drops it at once, when dead members are kept for no time at all). *)
Theorem C36_timer_buries : forall C e now id m s, reach C e -> runs e = true ->
  aget id (k_mem (e_core e)) = Some m -> m_susp m = Some s -> s_deadline s <= now ->
  match aget id (k_mem (e_core (fst (ep_step C e (ETimeout now))))) with
  | Some m' => m_state m' = PDead /\ m_inc m' = m_inc m /\ m_server m' = m_server m
  | None => True
  end.
Proof. intros C e now id m s R RU G S D. exact (timeout_buries C now e id m s (reach_inv C e R) RU G S D). Qed.
Print Assumptions C36_timer_buries.
Example C36_timer_buries_ex :
  let os := ee_joined ++ [EPacket 102 (MSuspect 3 3 2) 20] in
  ex os (fun e => option_map (fun m => option_map s_deadline (m_susp m)) (aget 3 (k_mem (e_core e)))) = Some (Some (Some 6020)) /\
  ex (os ++ [ETimeout 6019]) (fun e => option_map m_state (aget 3 (k_mem (e_core e)))) = Some (Some PSuspect) /\
  ex (os ++ [ETimeout 6020]) (fun e => option_map m_state (aget 3 (k_mem (e_core e)))) = Some (Some PDead).
Proof. vm_compute. auto. Qed.

(** * C70 *)
(** A due gossip round picks, without repetition, as many of the eligible
    members as configured (or all of them): others than the node itself that are
    Alive, Suspect, or Dead for no longer than the dead window.  Each gets the
    same messages in one datagram of its own; what else the handler sends before
    it is the traffic of probing. *)
Theorem C70_gossip_round : forall C e now d, reach C e -> runs e = true -> e_ng e = Some d -> d <= now ->
  let e' := fst (ep_step C e (ETimeout now)) in
  exists before ms targets rest,
    e_tx e' = e_tx e ++ before ++ flat_map (fun to => match ms with [] => [] | [m] => [TPacket to m] | _ => [TCompound to ms] end) targets /\
    Forall (fun t => forall to m, In (to, m) (carried t) -> match m with MPing _ _ _ | MIndirectPing _ _ _ | MNack _ | MSuspect _ _ _ => True | _ => False end) before /\
    Permutation (targets ++ rest) (map (fun p => ns_addr (m_server (snd p))) (filter (fun p => negb (fst p =? c_id C) &&
      match m_state (snd p) with PAlive | PSuspect => true | PDead => tsub now (m_change (snd p)) <=? c_dead_window C | _ => false end) (k_mem (e_core e')))) /\
    blen targets = N.min (c_gossip_nodes C) (blen (targets ++ rest)).
Proof.
  intros C e now d R RU G L. cbv zeta. cbn [ep_step fst]. destruct (timeout_round C now e d (reach_inv C e R) RU G L) as (x & before & targets & rest & _ & _ & F & TX & PM & BL).
  exists before, (snd (gossip_batch C x)), targets, rest. split; [exact TX|]. split; [|split; [exact PM|exact BL]].
  eapply Forall_impl; [|exact F]. intros t P to m H. unfold probing_tx in P. rewrite Forall_forall in P. exact (P (to, m) H).
Qed.
Print Assumptions C70_gossip_round.
(** the ping is the probe of that tick; with a dead member past the window the
    pool has two addresses instead of three *)
Example C70_ex :
  let os := ee_joined ++ [ESchedule 11; EPacket 102 (MSuspect 3 3 2) 20; EPacket 102 (MDead 3 4 2) 20] in
  let sent e := map (fun t => match t with TPacket to m => (to, [m]) | TCompound to ms => (to, firstn 2 ms) end) (e_tx e) in
  let ping := MPing 1 (mkNode 1 101) (mkNode 2 102) in
  ex os (fun e => (runs e, e_ng e, map (fun p => (fst p, m_state (snd p))) (k_mem (e_core e)))) = Some (true, Some 42, [(1, PAlive); (4, PDead); (2, PAlive); (3, PSuspect)]) /\
  ex (os ++ [ETimeout 300]) sent = Some [(102, [ping]); (102, [MDead 3 4 2; MSuspect 3 3 2]); (104, [MDead 3 4 2; MSuspect 3 3 2]); (103, [MDead 3 4 2; MSuspect 3 3 2])] /\
  ex (os ++ [ETimeout 40000]) sent = Some [(102, [ping]); (103, [MDead 3 3 1; MDead 3 4 2]); (102, [MDead 3 3 1; MDead 3 4 2])].
Proof. vm_compute. auto. Qed.

(** * C72 *)
(** As long as user data is queued, a due gossip round with anyone to talk to
    sends something; and when it is user data only, all that is queued is in it
    except what did not fit any more beside the rest. *)
Theorem C72_user_data_goes_out : forall C e now d, reach C e -> runs e = true -> sizes C -> c_inc0 C <= u32_max ->
  e_ng e = Some d -> d <= now -> let e' := fst (ep_step C e (ETimeout now)) in
  (exists q b, In q (e_ub e) /\ In b (map i_b (bq_q q))) ->
  exists before ms targets rest,
    e_tx e' = e_tx e ++ before ++ flat_map (fun to => match ms with [] => [] | [m] => [TPacket to m] | _ => [TCompound to ms] end) targets /\
    Permutation (targets ++ rest) (map (fun p => ns_addr (m_server (snd p))) (filter (fun p => negb (fst p =? c_id C) &&
      match m_state (snd p) with PAlive | PSuspect => true | PDead => tsub now (m_change (snd p)) <=? c_dead_window C | _ => false end) (k_mem (e_core e')))) /\
    blen targets = N.min (c_gossip_nodes C) (blen (targets ++ rest)) /\ ms <> [] /\
    ((forall m, In m ms -> exists b, m = MUserData b) ->
     forall q b, In q (e_ub e) -> In b (map i_b (bq_q q)) ->
     In (MUserData b) ms \/ c_mtu C < 6 + fold_right N.add 0 (map (fun m => match m with MUserData x => blen x + 11 | _ => 0 end) ms) + (blen b + 11)).
Proof.
  intros C e now d R RU HS IN G L. cbv zeta. intros Q. cbn [ep_step fst].
  assert (cfg_ok C = true) as HC. { destruct R as (t0 & e0 & os & N & _). unfold ep_new in N. destruct (cfg_ok C); [reflexivity|discriminate]. }
  pose proof (uinv_reach C HC HS e IN R) as U.
  destruct (timeout_round C now e d (reach_inv C e R) RU G L) as (x & before & targets & rest & (ls & T & _) & UB & _ & TX & PM & BL).
  pose proof (uinv_steps C HC HS _ _ _ _ T U) as UX.
  exists before, (snd (gossip_batch C x)), targets, rest. split; [exact TX|]. split; [exact PM|]. split; [exact BL|]. split.
  - apply batch_sends; [exact HC|exact UX|]. rewrite UB. exact Q.
  - intros A q b HQ HB. assert (forallb is_user (snd (gossip_batch C x)) = true) as FA by (apply forallb_forall; intros m M; destruct (A m M) as (y & ->); reflexivity).
    destruct (batch_fills C HC x UX FA) as (users & EU & H). rewrite EU. rewrite <- UB in HQ. destruct (H q b HQ HB) as [X|X]; [left; apply in_map, X|right].
    assert (fold_right N.add 0 (map (fun m => match m with MUserData x => blen x + 11 | _ => 0 end) (map MUserData users)) = BroadcastHist.cost bytes_broadcast USER_OVERHEAD users) as ->; [|change USER_OVERHEAD with 11 in *; lia].
    unfold BroadcastHist.cost. clear. induction users as [|u us IH]; [reflexivity|]. cbn [map fold_right]. rewrite IH. reflexivity.
Qed.
Print Assumptions C72_user_data_goes_out.
(** what [queue_user_broadcast] accepts is queued, and what it refuses is too
    long for any datagram *)
Theorem C72_user_data_accepted : forall C e rank b, reach C e -> runs e = true -> 0 < c_tiers C ->
  if blen b + 17 <=? c_mtu C
  then snd (ep_step C e (EQueueUser rank b)) = [] /\ e_ub (fst (ep_step C e (EQueueUser rank b))) = queue_ranked bytes_broadcast rank b (e_ub e)
  else ep_step C e (EQueueUser rank b) = (e, [OErr]).
Proof.
  intros C e rank b R RU T. cbn [ep_step]. unfold queue_user. rewrite RU. cbn [negb].
  destruct R as (t0 & e0 & os & N & _). unfold ep_new in N. destruct (cfg_ok C) eqn:HC; [|discriminate]. pose proof (mtu_bounds C HC) as [[M _] _].
  unfold user_limit, USER_OVERHEAD, PART_LEN, TAG_LEN, COUNT_LEN, MTU_MIN in *.
  destruct (N.ltb_spec (c_mtu C - (1 + 5) - (5 + 1 + 5)) (blen b)), (N.leb_spec (blen b + 17) (c_mtu C)); try lia; [reflexivity|split; reflexivity].
Qed.
Print Assumptions C72_user_data_accepted.
(** the third datum has no room beside the other two *)
Example C72_ex :
  let os := ee_joined ++ [ESchedule 11; EDrain; EDrain; EDrain; EDrain; EDrain; EQueueUser 0 [9; 9]; EQueueUser 1 (repeat 3 1383); EQueueUser 0 [8]] in
  ex os (fun e => (runs e, e_ng e, map (fun q => map (fun x => blen (i_b x)) (bq_q q)) (e_ub e))) = Some (true, Some 42, [[2; 1]; [1383]]) /\
  ex (os ++ [ETimeout 300]) (fun e => map (fun t => match t with TPacket to m => (to, [m]) | TCompound to ms => (to, ms) end) (e_tx e)) =
    Some ((104, [MPing 1 (mkNode 1 101) (mkNode 4 104)]) :: map (fun a => (a, [MUserData [9; 9]; MUserData [8]])) [102; 104; 103]) /\
  ex os (fun e => snd (ep_step ee_cfg e (EQueueUser 0 (repeat 3 1384)))) = Some [OErr].
Proof. vm_compute. auto. Qed.

(** * C71 *)
(** tables with the same entries up to order list the same *)
Lemma same_listing (t t' : amap member) : NoDup (akeys t) -> NoDup (akeys t') ->
  (forall id, option_map (fun m => (m_server m, m_inc m, m_state m)) (aget id t') = option_map (fun m => (m_server m, m_inc m, m_state m)) (aget id t)) ->
  let f := fun p : N * member => let m := snd p in let s := m_server m in mkPNS (m_inc m) (ns_id s) (ns_addr s) (m_state m) (ns_meta s) (ns_pv s) (ns_dv s) in
  Permutation (map f t) (map f t').
Proof.
  intros N1 N2 H f. set (g := fun p : N * member => (fst p, (m_server (snd p), m_inc (snd p), m_state (snd p)))).
  set (h := fun p : N * (nstate * N * pstate) => let '(s, i, st) := snd p in mkPNS i (ns_id s) (ns_addr s) st (ns_meta s) (ns_pv s) (ns_dv s)).
  assert (forall l, map f l = map h (map g l)) as F by (intros l; rewrite map_map; reflexivity). rewrite !F. apply Permutation_map.
  assert (forall l : amap member, NoDup (akeys l) -> NoDup (map g l)) as ND.
  { intros l X. apply (NoDup_map_inv fst). rewrite map_map. exact X. }
  assert (forall (l : amap member) id v, NoDup (akeys l) -> In (id, v) (map g l) <-> option_map (fun m => (m_server m, m_inc m, m_state m)) (aget id l) = Some v) as IN.
  { intros l id v X. split.
    - intros I. apply in_map_iff in I as ([i m] & E & I). unfold g in E. cbn in E. injection E as -> <-. rewrite (aget_of_in _ _ _ X I). reflexivity.
    - intros I. destruct (aget id l) as [m|] eqn:G; [|discriminate]. apply Some_inj in I. apply in_map_iff. exists (id, m). split; [unfold g; cbn; congruence|apply aget_in; exact G]. }
  apply NoDup_Permutation; [apply ND, N1|apply ND, N2|]. intros [id v]. rewrite !IN by assumption. rewrite H. reflexivity.
Qed.
(** A due push/pull tick with any live member opens an exchange with one of
    them: the dial is asked for, and what will be sent is the listing of the
    whole membership table as it is now. *)
Definition table (e : ep) : list pns :=
  map (fun p => let m := snd p in let s := m_server m in
         mkPNS (m_inc m) (ns_id s) (ns_addr s) (m_state m) (ns_meta s) (ns_pv s) (ns_dv s)) (k_mem (e_core e)).
Theorem C71_pushpull_tick : forall C e now d, reach C e -> runs e = true -> e_npp e = Some d -> d <= now ->
  let e' := fst (ep_step C e (ETimeout now)) in
  let live := filter (fun p => negb (fst p =? c_id C) && match m_state (snd p) with PAlive | PSuspect => true | _ => false end) (k_mem (e_core e')) in
  live = [] \/ exists id p evs, In p live /\
    let peer := ns_addr (m_server (snd p)) in let dl := tadd now (c_stream_timeout C) in
    aget id (e_int e') = Some (mkIntent peer (OKPushPull false) dl (MPushPull false (table e') (e_snap e'))) /\
    k_ev (e_core e') = evs ++ [EvDial id peer dl].
Proof.
  intros C e now d R RU G L. cbv zeta. cbn [ep_step fst]. destruct (timeout_pushpull C now e d (reach_inv C e R) RU G L) as [H|(id & peer & evs & P & I & E)].
  - left. unfold live_addrs in H. apply map_eq_nil in H. exact H.
  - right. unfold live_addrs in P. apply in_map_iff in P as (p & <- & P). exists id, p, evs. auto.
Qed.
Print Assumptions C71_pushpull_tick.
(** Right after the timer handler, what is kept ready for peers that ask lists
    the whole table as it is now, up to its order, with the application's latest
    snapshot (the version counter that decides whether to rebuild it has 64 bits
    and must not have gone all the way round). *)
Theorem C71_answer_fresh_after_tick : forall C e now, reach C e -> runs e = true ->
  let e' := fst (ep_step C e (ETimeout now)) in
  exists t0 ks, e_core e' = core_at C t0 ks /\
    (effort C (core_new C t0) ks < two64 ->
     exists l, e_cache e' = MPushPull false l (e_snap e') /\ Permutation l (table e')).
Proof.
  intros C e now R RU. cbv zeta. cbn [ep_step fst].
  destruct (cache_reach C e R) as (t0 & H). pose proof (cache_step C t0 e (ETimeout now) (reach_inv C e R) H) as H'. cbn [ep_step fst] in H'.
  destruct (timeout_held C now e RU) as (x & E & V). rewrite E in *.
  assert (e_cver (refresh_cache x) = k_ver (e_core (refresh_cache x)) /\ e_cdirty (refresh_cache x) = false) as (CV & CD).
  { unfold refresh_cache. destruct (N.eqb_spec (k_ver (e_core x)) (e_cver x)) as [Q|Q]; cbn [andb]; [destruct (e_cdirty x) eqn:D; cbn [negb]|]; split; try reflexivity; auto. }
  destruct H' as (ks1 & ks2 & sn & EC & ECA & ECV & ED). cbv zeta in *. set (e' := refresh_cache x) in *.
  exists t0, (ks1 ++ ks2). assert (e_core e' = core_at C t0 (ks1 ++ ks2)) as EC'.
  { rewrite EC. unfold core_at. rewrite !core_run_fst, fold_left_app. reflexivity. }
  split; [exact EC'|]. intros L. exists (listing (core_at C t0 ks1)). split.
  - rewrite ECA, (ED CD). reflexivity.
  - assert (effort C (core_at C t0 ks1) ks2 < two64) as L2.
    { eapply N.le_lt_trans; [|exact L]. clear. unfold core_at. rewrite core_run_fst. generalize (core_new C t0). induction ks1 as [|o os IH]; intros k; [reflexivity|].
      cbn [app fold_left effort]. specialize (IH (fst (core_step C k o))). lia. }
    pose proof (C58_version_reflects_changes C t0 ks1 ks2) as K. cbv zeta in K. specialize (K L2). 
    assert (fst (core_run C (core_at C t0 ks1) ks2) = e_core e') as X by (symmetry; exact EC). rewrite X in K.
    destruct K as (K & _). { rewrite <- CV, ECV. reflexivity. }
    pose proof (ki_nodup _ _ (kinv_at C t0 ks1)) as N1. pose proof (ki_nodup _ _ (kinv_at C t0 (ks1 ++ ks2))) as N2. rewrite <- EC' in N2.
    unfold table, listing. apply same_listing; [exact N1|exact N2|exact K].
Qed.
Print Assumptions C71_answer_fresh_after_tick.
Example C71_ex :
  let os := ee_joined ++ [ESchedule 11; EPacket 102 (MSuspect 3 3 2) 20; ETimeout 520] in
  ex os (fun e => (runs e, e_npp e, map (fun p => (fst p, m_state (snd p))) (k_mem (e_core e)))) = Some (true, Some 30520, [(1, PAlive); (4, PAlive); (2, PAlive); (3, PSuspect)]) /\
  ex (os ++ [ETimeout 40000]) (fun e => last (k_ev (e_core e)) (EvDial 0 0 0)) = Some (EvDial 2 104 50000) /\
  ex (os ++ [ETimeout 40000]) (fun e => match e_cache e with MPushPull j l u => (j, map (fun p => (pn_id p, pn_state p)) l, u) | _ => (true, [], []) end)
    = Some (false, [(1, PAlive); (4, PSuspect); (2, PAlive); (3, PDead)], []).
Proof. vm_compute. auto. Qed.
(** Between two calls of the timer handler it is not: the answer to a peer that
    asks then leaves out a member that has joined since. *)
Theorem C71_answer_always_fresh_refuted : exists C e e' l, reach C e /\ runs e = true /\
  ep_step C e (EStreamEv (SERequest 110 [] [] false 9) 610) = (e', [OResponse (MPushPull false l (e_snap e'))]) /\
  exists m, aget 5 (k_mem (e_core e)) = Some m /\ m_state m = PAlive /\ aget 5 (k_mem (e_core e')) = Some m /\ forall p, In p l -> pn_id p <> 5.
Proof.
  destruct (ee (ee_joined ++ [ESchedule 11; ETimeout 520; EPacket 105 (MAlive (ex_al 3 5 105)) 600])) as [e|] eqn:H; [|vm_compute in H; discriminate].
  pose proof (ee_reach _ _ H) as R.
  destruct (ep_step ee_cfg e (EStreamEv (SERequest 110 [] [] false 9) 610)) as [e' r] eqn:S.
  assert (option_map (fun x => let y := ep_step ee_cfg x (EStreamEv (SERequest 110 [] [] false 9) 610) in
    (runs x, map (fun z => match z with OResponse (MPushPull j l u) => (j, map pn_id l, u) | _ => (true, [], []) end) (snd y), e_snap (fst y),
     option_map m_state (aget 5 (k_mem (e_core x))))) (Some e) = Some (true, [(false, [1; 4; 2; 3], [])], [], Some PAlive)) as X by (rewrite <- H; vm_compute; reflexivity).
  cbn [option_map] in X. cbv zeta in X. rewrite S in X. cbn [fst snd] in X. apply Some_inj in X. injection X as X1 X2 X3 X4.
  assert (option_map (fun x => aget 5 (k_mem (e_core (fst (ep_step ee_cfg x (EStreamEv (SERequest 110 [] [] false 9) 610)))))) (Some e) =
          option_map (fun x => aget 5 (k_mem (e_core x))) (Some e)) as Y by (rewrite <- H; vm_compute; reflexivity).
  cbn [option_map] in Y. rewrite S in Y. apply Some_inj in Y. cbn [fst] in Y.
  destruct r as [|o [|? ?]]; try discriminate X2. destruct o as [| | | | | | |m|]; try discriminate X2. destruct m as [| | | | | | |j l u| |]; try discriminate X2.
  cbn [map] in X2. injection X2 as -> XL ->. destruct (aget 5 (k_mem (e_core e))) as [m|] eqn:G; [|discriminate X4]. cbn in X4. apply Some_inj in X4.
  exists ee_cfg, e, e', l. split; [exact R|]. split; [exact X1|]. split; [rewrite X3; exact S|]. exists m. split; [exact G|]. split; [exact X4|]. split; [exact Y|].
  intros p P Q. apply (in_map pn_id) in P. rewrite XL, Q in P. cbn in P. destruct P as [P|[P|[P|[P|[]]]]]; discriminate P.
Qed.
Print Assumptions C71_answer_always_fresh_refuted.
