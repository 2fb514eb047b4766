(** Properties C27-C36, C46, C47, C49, C58, C62: what one node records about
    the cluster.  [core_at C t0 os] is the membership core of a node
    configured by [C], started at [t0], after any history [os]. *)
From Verif Require Import CoreModel MapFacts BaseFacts DeadlineFacts CoreFacts CoreInv CoreSteps CoreTrans CoreHist CoreSpec CoreEffects.
Local Open Scope N_scope.

(** ** A concrete node for the examples: id 1 at address 101, starting at
    incarnation 5; suspicion lasts between 1000 and 6000 ticks. *)
Definition ex_enc (m : msg) : bytes := match m with MUserData d => 9 :: d | _ => [1; 2; 3] end.
Definition ex_cfg : cfg :=
  mkCfg 1 101 1 1 5 [7] 512 4 (fun _ => (1000, 6000)) (fun _ _ _ _ => 2%Z) (fun _ => 4)
    8 500 30000 (Some 3) (fun i => i * 7 + 3) (fun _ => [1; 2; 3])
    1400 65536 [] 2 1000 500 3 200 3 30000 10000 256 false.
Definition ex_al inc id addr := mkAlive inc id addr [4] 1 1.
Definition ex_at := core_at ex_cfg 0.
Lemma ex_enc_ok : enc_ok ex_cfg.
Proof. intros x. vm_compute. discriminate. Qed.
Definition view (r : option member) : option (pstate * N * N) :=
  match r with Some m => Some (m_state m, m_inc m, ns_addr (m_server m)) | None => None end.
(** member 2 joins at incarnation 3, is suspected by 9, dies at 7000 *)
Definition ex_joined := [KAlive (ex_al 3 2 102) 10].
Definition ex_suspected := ex_joined ++ [KSuspect 3 2 9 20].
Definition ex_died := ex_suspected ++ [KExpire 7000].
Definition ex_left := ex_joined ++ [KDead 3 2 2 20].
Example ex_histories :
  view (rec_at (ex_at ex_joined) 2) = Some (PAlive, 3, 102) /\
  view (rec_at (ex_at ex_suspected) 2) = Some (PSuspect, 3, 102) /\
  view (rec_at (ex_at ex_died) 2) = Some (PDead, 3, 102) /\
  view (rec_at (ex_at ex_left) 2) = Some (PLeft, 3, 102).
Proof. vm_compute. repeat split. Qed.

Lemma kinv_at C t0 os : kinv C (core_at C t0 os).
Proof. apply kinv_run, kinv_new. Qed.

(** * C27 *)
(** One operation other than a merge (which C49 reduces to single operations)
    lowers the incarnation recorded for another node only if that node had
    departed and an alive message from a different address takes its name over. *)
Theorem C27_incarnation_falls_only_on_takeover : forall C t0 os o id m m',
  single o -> id <> c_id C ->
  rec_at (core_at C t0 os) id = Some m ->
  rec_at (fst (core_step C (core_at C t0 os) o)) id = Some m' ->
  m_inc m' < m_inc m ->
  departed m /\ exists al now, o = KAlive al now /\ al_id al = id /\
    al_addr al <> ns_addr (m_server m) /\
    (m_state m = PLeft \/ (m_state m = PDead /\ 0 < c_reclaim C < tsub now (m_change m))).
Proof.
  intros C t0 os o id m m' SI NL G G' L. pose proof (kinv_at C t0 os) as V. set (k := core_at C t0 os) in *.
  destruct o as [al now| | |l now|now| | | | | | | | | | | | |]; try contradiction;
    try (match goal with |- context [core_step C k ?o] => idtac | _ => idtac end;
      match type of G' with context [core_step C k ?o] =>
        pose proof (opt_trans C o k id V Logic.I) as T; rewrite G, G' in T;
        destruct (inc_trans C _ _ _ _ _ _ _ NL T L) as (D & al0 & O & EI & EA & R); cbn in O; try contradiction;
        try (destruct O as [_ O]; discriminate) end).
  - destruct O as [_ [= ->]]. split; [exact D|]. exists al, now. repeat split; auto.
    unfold readmits in R. destruct (N.eqb_spec (al_addr al) (ns_addr (m_server m))); [contradiction|exact R].
  - exfalso. destruct (core_step_chain C k (KExpire now) V) as (j & _ & S).
    assert (forall m1, rec_at k id = Some m1 -> m_inc m1 = m_inc m -> False) as K; [|exact (K m G eq_refl)].
    generalize dependent (fst (core_step C k (KExpire now))). intros k' G' S. clear G. clearbody k. cbn [op_now] in S. remember (KExpire now) as o eqn:Eo.
    enough (forall m1, rec_at k id = Some m1 -> m_inc m <= m_inc m1 -> False) by (intros m1 A1 A2; apply (H m1 A1); lia).
    induction S as [|n k1 k2 k3 S1 S2 IH]; intros m1 G E1.
    + rewrite G in G'. injection G' as ->. lia.
    + pose proof (step_trans C _ _ _ _ id V S1) as T. rewrite G in T.
      destruct (rec_at k2 id) as [m2|] eqn:G2.
      * apply (IH (kinv_step C _ _ _ _ V S1) G' m2 eq_refl).
        destruct (N.lt_ge_cases (m_inc m2) (m_inc m1)) as [L1|L1]; [|lia].
        destruct (inc_trans C _ _ _ _ _ _ _ NL T L1) as (_ & al0 & O & _). subst o. destruct O as (_ & a & b & O & _). discriminate.
      * remember (Some m1) as r eqn:Er. remember None as r' eqn:Er'. destruct T; subst; discriminate.
Qed.
Print Assumptions C27_incarnation_falls_only_on_takeover.
(** hypotheses met, and the exception does happen *)
Example C27_incarnation_falls_only_on_takeover_ex :
  let o := KAlive (ex_al 1 2 999) 30 in
  view (rec_at (ex_at ex_left) 2) = Some (PLeft, 3, 102) /\
  view (rec_at (fst (core_step ex_cfg (ex_at ex_left) o)) 2) = Some (PAlive, 1, 999).
Proof. vm_compute. split; reflexivity. Qed.

(** Over whole histories: a record found later is the same instance of the
    member, at the same address and no lower incarnation, or an instance
    created in between (its generation is new). *)
Theorem C27_monotone_per_instance : forall C t0 os1 os2 id m m',
  let k := core_at C t0 os1 in
  2 + effort C (core_new C t0) os1 + effort C k os2 < u64_max -> id <> c_id C ->
  rec_at k id = Some m -> rec_at (fst (core_run C k os2)) id = Some m' ->
  (m_gen m' = m_gen m /\ ns_addr (m_server m') = ns_addr (m_server m) /\ m_inc m <= m_inc m') \/
  (forall j n, rec_at k j = Some n -> m_gen n < m_gen m').
Proof.
  intros C t0 os1 os2 id m m' k L NL G G'. pose proof (kinv_at C t0 os1) as V. fold k in V.
  pose proof (gens_run C os1 (core_new C t0) 2 (kinv_new C t0) (gens_new C t0)) as GN.
  pose proof (inst_run C os2 k (2 + effort C (core_new C t0) os1) id m V GN ltac:(lia) G) as H. rewrite G' in H.
  destruct H as [[H1 H2]|H]; [left; split; [exact H1|exact (H2 NL)]|right].
  intros j n Gn. destruct (GN ltac:(lia)) as [_ GM]. specialize (GM j n Gn). subst k. unfold core_at in *. lia.
Qed.
Print Assumptions C27_monotone_per_instance.
Example C27_monotone_per_instance_ex :
  let f os := match rec_at (ex_at os) 2 with Some m => (m_gen m, m_inc m) | None => (0, 0) end in
  f ex_joined = (2, 3) /\ f (ex_joined ++ [KAlive (ex_al 8 2 102) 15]) = (2, 8) /\
  f (ex_left ++ [KAlive (ex_al 1 2 999) 30]) = (3, 1) /\ 2 + effort ex_cfg (core_new ex_cfg 0) ex_left < u64_max.
Proof. vm_compute. repeat split. Qed.

(** The node's own incarnation never falls, as long as no gossip accuses it at
    the largest incarnation and counting up does not reach it either. *)
Theorem C27_local_incarnation_monotone : forall C t0 os1 os2 B,
  let k := core_at C t0 os1 in
  Forall (accused_below C B) os2 -> N.max (k_inc k) B + all_metas os2 <= u32_max ->
  k_inc k <= k_inc (fst (core_run C k os2)).
Proof. intros C t0 os1 os2 B k F L. apply (inc_run C B os2 k (kinv_at C t0 os1) F L). Qed.
Print Assumptions C27_local_incarnation_monotone.
Example C27_local_incarnation_monotone_ex :
  let os := [KSuspect 5 1 9 10; KMeta [1]; KMerge [mkPNS 20 1 101 PLeft [] 1 1] 20; KMeta [2]] in
  k_inc (core_new ex_cfg 0) = 5 /\ k_inc (ex_at os) = 22 /\ Forall (accused_below ex_cfg 21) os /\ all_metas os = 2.
Proof.
  split; [vm_compute; reflexivity|]. split; [vm_compute; reflexivity|]. split; [|reflexivity].
  repeat constructor; cbn; try lia. intros p [<-|[]] _. cbn. lia.
Qed.
(** Without that bound the claim is false: one accusation at [u32::MAX] sends
    the node's incarnation back to 0. *)
Theorem C27_local_incarnation_monotone_refuted : exists C t0 os,
  k_inc (core_at C t0 os) < k_inc (core_new C t0).
Proof. exists ex_cfg, 0, [KSuspect u32_max 1 9 10]. vm_compute. reflexivity. Qed.
Print Assumptions C27_local_incarnation_monotone_refuted.

(** * C28 *)
(** Whatever the operation, a member recorded Dead or Left is Alive or Suspect
    afterwards only if the operation delivered an alive message about it: with
    a greater incarnation from the recorded address, or from another address
    when the name had been given up or its reclaim time had passed. *)
Theorem C28_no_false_resurrection : forall C t0 os o id m m',
  rec_at (core_at C t0 os) id = Some m -> departed m ->
  rec_at (fst (core_step C (core_at C t0 os) o)) id = Some m' -> m_state m' = PAlive \/ m_state m' = PSuspect ->
  exists al, carries o al /\ al_id al = id /\
    if al_addr al =? ns_addr (m_server m) then m_inc m < al_inc al
    else m_state m = PLeft \/ (m_state m = PDead /\ 0 < c_reclaim C < tsub (op_now o) (m_change m)).
Proof.
  intros C t0 os o id m m' G D G' A. destruct (departed_op C o _ id m (kinv_at C t0 os) G D) as [(m2 & E & F)|[[E _]|H]].
  - rewrite G' in E. injection E as <-. destruct F as [F _]. exfalso. unfold departed in D. rewrite <- F in D. intuition congruence.
  - congruence.
  - exact H.
Qed.
Print Assumptions C28_no_false_resurrection.
Example C28_no_false_resurrection_ex :
  let after os o := view (rec_at (fst (core_step ex_cfg (ex_at os) o)) 2) in
  after ex_died (KAlive (ex_al 3 2 102) 7001) = Some (PDead, 3, 102) /\
  after ex_died (KAlive (ex_al 4 2 102) 7001) = Some (PAlive, 4, 102) /\
  after ex_died (KAlive (ex_al 9 2 999) 7500) = Some (PDead, 3, 102) /\
  after ex_died (KAlive (ex_al 1 2 999) 7501) = Some (PAlive, 1, 999) /\
  after ex_left (KMerge [mkPNS 4 2 102 PAlive [] 1 1] 30) = Some (PAlive, 4, 102).
Proof. vm_compute. repeat split. Qed.

(** * C29 *)
(** An operation that delivers no alive message about a departed member leaves
    its state, incarnation and address alone, or prunes it. *)
Theorem C29_departed_frozen : forall C t0 os o id m,
  rec_at (core_at C t0 os) id = Some m -> departed m ->
  (forall al, carries o al -> al_id al <> id) ->
  match rec_at (fst (core_step C (core_at C t0 os) o)) id with
  | Some m' => m_state m' = m_state m /\ m_inc m' = m_inc m /\ m_server m' = m_server m
  | None => exists now, o = KReset now
  end.
Proof.
  intros C t0 os o id m G D NA. destruct (departed_op C o _ id m (kinv_at C t0 os) G D) as [(m2 & E & F)|[[E H]|(al & A & B & _)]].
  - rewrite E. unfold frozen in F. tauto.
  - rewrite E. exact H.
  - destruct (NA al A B).
Qed.
Print Assumptions C29_departed_frozen.
(** A single operation takes a departed member to the same state or to Alive,
    never to Suspect or to the other way of having departed. *)
Theorem C29_never_suspected : forall C t0 os o id m m',
  single o -> rec_at (core_at C t0 os) id = Some m -> departed m ->
  rec_at (fst (core_step C (core_at C t0 os) o)) id = Some m' ->
  m_state m' = m_state m \/ m_state m' = PAlive.
Proof.
  intros C t0 os o id m m' SI G D G'. pose proof (kinv_at C t0 os) as V. set (k := core_at C t0 os) in *.
  destruct o; try contradiction;
    try (match type of G' with context [core_step C k ?o] =>
        pose proof (opt_trans C o k id V Logic.I) as T; rewrite G, G' in T;
        destruct (departed_trans C _ _ _ _ _ _ _ D T) as [(m2 & E & F & _)|[[E _]|(al0 & m2 & _ & _ & _ & E & F)]];
        [injection E as <-; left; apply F|discriminate|injection E as <-; right; exact F] end).
  pose proof (C29_departed_frozen C t0 os (KExpire now) id m G D) as H. fold k in H. rewrite G' in H. left. apply H. intros al [].
Qed.
Print Assumptions C29_never_suspected.
Example C29_ex :
  let after os o := view (rec_at (fst (core_step ex_cfg (ex_at os) o)) 2) in
  after ex_died (KSuspect 50 2 9 7100) = Some (PDead, 3, 102) /\
  after ex_died (KDead 50 2 2 7100) = Some (PDead, 3, 102) /\
  after ex_left (KDead 50 2 9 7100) = Some (PLeft, 3, 102) /\
  after ex_left (KMerge [mkPNS 50 2 102 PSuspect [] 1 1; mkPNS 50 2 102 PLeft [] 1 1] 30) = Some (PLeft, 3, 102) /\
  after ex_left (KReset 40000) = None.
Proof. vm_compute. repeat split. Qed.

(** * C30 *)
(** The ways to accuse a node: suspect it, declare it dead, or an alive message
    about it from its own address that is ahead of it or contradicts it. *)
Definition accuses_local (C : cfg) (k : core) (o : cop) (accused : N) : Prop :=
  match o with
  | KSuspect inc id _ _ | KDead inc id _ _ => id = c_id C /\ inc = accused
  | KAlive al _ => al_id al = c_id C /\ al_addr al = c_addr C /\ al_inc al = accused /\
      k_adm k (alive_ns al PAlive) = true /\
      (k_inc k < accused \/ exists m, rec_at k (c_id C) = Some m /\
         (ns_meta (m_server m) <> al_meta al \/ c_pv C <> al_pv al \/ c_dv C <> al_dv al))
  | _ => False
  end.
Theorem C30_refutes : forall C t0 os o accused,
  let k := core_at C t0 os in let k' := fst (core_step C k o) in
  enc_ok C -> 1 + effort C (core_new C t0) os < u64_max ->
  k_life k = Running -> accuses_local C k o accused -> k_inc k <= accused -> accused < u32_max ->
  k_inc k < k_inc k' /\ accused < k_inc k' /\
  exists m, rec_at k' (c_id C) = Some m /\ m_state m = PAlive /\ m_inc m = k_inc k' /\
    queued (c_id C, MAlive (mkAlive (k_inc k') (c_id C) (c_addr C) (ns_meta (m_server m)) (c_pv C) (c_dv C))) k'.
Proof.
  intros C t0 os o accused k k' HE L R A LI LA. pose proof (kinv_at C t0 os) as V. fold k in V.
  destruct (ki_local C k V) as (m & G & EI & EA & EP & ED & ST). destruct (local_rec C k V) as (m0 & G0 & _ & EID & _).
  assert (m0 = m) by congruence. subst m0.
  pose proof (refute_exact C o accused k m V R A LI LA G) as E. fold k' in E.
  assert (m_state m = PAlive) as EAl by (destruct ST as [[_ H]|[H _]]; congruence).
  assert (k_inc k' = accused + 1) as EK by (rewrite E; reflexivity). rewrite EK.
  split; [lia|]. split; [lia|]. exists (m_set_inc (accused + 1) m). repeat split.
  - rewrite E. unfold rec_at. cbn. rewrite aget_mt_upd, N.eqb_refl. unfold rec_at in G. rewrite G. reflexivity.
  - exact EAl.
  - cbn [m_set_inc m_server]. rewrite E.
    replace (mkAlive (accused + 1) (c_id C) (c_addr C) (ns_meta (m_server m)) (c_pv C) (c_dv C)) with (alive_of (accused + 1) (m_server m))
      by (unfold alive_of; rewrite EID, EA, EP, ED; reflexivity).
    apply (bcast_queued C _ _ (1 + effort C (core_new C t0) os)); [|exact L].
    apply (kq_ext C _ k); [|reflexivity]. apply kq_run, HE.
Qed.
Print Assumptions C30_refutes.
(** A peer that holds the node at no more than the accused incarnation, at its
    address, takes it as Alive on hearing the refutation, whatever the state. *)
Theorem C30_refutation_convinces : forall C t0 os al now m,
  let k := core_at C t0 os in
  k_life k = Running -> k_adm k (alive_ns al PAlive) = true -> al_id al <> c_id C ->
  rec_at k (al_id al) = Some m -> ns_addr (m_server m) = al_addr al -> m_inc m < al_inc al ->
  exists m', rec_at (fst (core_step C k (KAlive al now))) (al_id al) = Some m' /\
    m_state m' = PAlive /\ m_inc m' = al_inc al /\ m_susp m' = None.
Proof.
  intros C t0 os al now m k R AD NL G EA LI. pose proof (kinv_at C t0 os) as V. fold k in V.
  cbn [core_step fst]. unfold process_alive. rewrite R, AD. cbn [is_running negb]. unfold alive_decided. unfold rec_at in G. rewrite G, EA, N.eqb_refl.
  unfold alive_apply. rewrite G. destruct (N.eqb_spec (al_id al) (c_id C)); [contradiction|]. cbn [negb andb].
  destruct (N.leb_spec (al_inc al) (m_inc m)); [lia|]. unfold clear_suspicion, upd. cbn [k_set_sidx k_set_mem k_mem].
  rewrite mt_upd_upd. match goal with |- context [mt_upd (al_id al) (fun m : member => @?f m) (k_mem k)] => set (m1 := f) end. set (k1 := bcast C _ _ _).
  assert (forall k2, k_mem k2 = k_mem k1 -> rec_at k2 (al_id al) = Some (m1 m)) as K.
  { intros k2 E2. unfold rec_at. rewrite E2. unfold k1. cbn. rewrite aget_mt_upd, N.eqb_refl, G. reflexivity. }
  exists (m1 m). split; [|unfold m1; cbn; destruct (pstate_eqb_spec (m_state m) PAlive) as [E|]; cbn; auto].
  destruct (dead_or_left _); [apply K; reflexivity|]. destruct (negb _); apply K; reflexivity.
Qed.
Print Assumptions C30_refutation_convinces.
Example C30_ex :
  let o := KDead 8 1 9 40 in
  let k' := fst (core_step ex_cfg (ex_at ex_joined) o) in
  accuses_local ex_cfg (ex_at ex_joined) o 8 /\ k_inc (ex_at ex_joined) = 5 /\ view (rec_at k' 1) = Some (PAlive, 9, 101) /\
  In (1, MAlive (mkAlive 9 1 101 [7] 1 1)) (map i_b (bq_q (k_bc k'))) /\
  view (rec_at (fst (core_step ex_cfg (ex_at ex_died) (KAlive (ex_al 4 2 102) 7001))) 2) = Some (PAlive, 4, 102).
Proof. vm_compute. repeat split. tauto. Qed.
(** At the largest incarnation there is nothing above to move to: the node
    wraps to 0 and its refutation is stale for whoever holds the accusation. *)
Theorem C30_refutes_any_accusation_refuted : exists C t0 os o accused,
  let k := core_at C t0 os in
  k_life k = Running /\ accuses_local C k o accused /\ k_inc k <= accused /\
  k_inc (fst (core_step C k o)) < k_inc k.
Proof. exists ex_cfg, 0, [], (KSuspect u32_max 1 9 10), u32_max. vm_compute. repeat split; congruence. Qed.
Print Assumptions C30_refutes_any_accusation_refuted.
(** An alive message about the node from another address is not an accusation:
    it is reported as a conflict and nothing else happens. *)
Theorem C30_foreign_address_is_conflict : forall C t0 os al now,
  let k := core_at C t0 os in
  k_life k = Running -> k_adm k (alive_ns al PAlive) = true -> al_id al = c_id C -> al_addr al <> c_addr C ->
  exists m, rec_at k (c_id C) = Some m /\
    fst (core_step C k (KAlive al now)) = k_set_ev (k_ev k ++ [EvConflict (m_server m) (alive_ns al PAlive)]) k.
Proof.
  intros C t0 os al now k R AD E NA. pose proof (kinv_at C t0 os) as V. fold k in V.
  destruct (ki_local C k V) as (m & G & EI & EA & EP & ED & ST). exists m. split; [exact G|].
  cbn [core_step fst]. unfold process_alive. rewrite R, AD. cbn [is_running negb]. unfold alive_decided, rec_at in *. rewrite E, G, EA.
  destruct (N.eqb_spec (c_addr C) (al_addr al)); [congruence|]. destruct ST as [[_ ->]|[H _]]; [reflexivity|congruence].
Qed.
Print Assumptions C30_foreign_address_is_conflict.
Example C30_foreign_address_is_conflict_ex :
  k_ev (fst (core_step ex_cfg (ex_at []) (KAlive (ex_al 50 1 999) 10))) =
  [EvJoined (mkNS 1 101 PAlive [7] 1 1); EvConflict (mkNS 1 101 PAlive [7] 1 1) (mkNS 1 999 PAlive [4] 1 1)].
Proof. vm_compute. reflexivity. Qed.

(** * C31 *)
Theorem C31_local_alive_or_left : forall C t0 os,
  let k := core_at C t0 os in
  exists m, rec_at k (c_id C) = Some m /\ ns_addr (m_server m) = c_addr C /\ m_inc m = k_inc k /\
    (k_life k = Running /\ m_state m = PAlive \/ k_life k = LeftLife /\ m_state m = PLeft).
Proof.
  intros C t0 os k. destruct (ki_local C k (kinv_at C t0 os)) as (m & G & EI & EA & _ & _ & ST). exists m. auto.
Qed.
Print Assumptions C31_local_alive_or_left.
Example C31_local_alive_or_left_ex :
  view (rec_at (ex_at [KSuspect 30 1 9 10; KDead 40 1 1 10; KExpire 9999999]) 1) = Some (PAlive, 41, 101) /\
  view (rec_at (ex_at [KDead 40 1 9 10; KLeave 20; KAlive (ex_al 90 1 101) 30]) 1) = Some (PLeft, 41, 101).
Proof. vm_compute. split; reflexivity. Qed.

(** * C32 *)
(** Stale messages, and suspect or dead messages about unknown members, change
    nothing at all. *)
Definition stale (C : cfg) (k : core) (o : cop) : Prop :=
  match o with
  | KSuspect inc id _ _ | KDead inc id _ _ =>
      match rec_at k id with Some m => inc < m_inc m | None => True end
  | KAlive al _ => al_id al <> c_id C /\
      exists m, rec_at k (al_id al) = Some m /\ ns_addr (m_server m) = al_addr al /\ al_inc al <= m_inc m
  | _ => False
  end.
Theorem C32_stale_gossip_ignored : forall C k o, stale C k o -> core_step C k o = (k, []).
Proof.
  intros C k o H. destruct o; try contradiction; cbn [core_step]; f_equal; unfold stale, rec_at in H.
  - destruct H as (NL & m & G & EA & LI). unfold process_alive. destruct (negb _); [reflexivity|]. destruct (k_adm _ _); [|reflexivity].
    unfold alive_decided. rewrite G, EA, N.eqb_refl. exact (alive_stale C al now k m G NL LI).
  - unfold process_suspect. destruct (negb _); [reflexivity|]. destruct (aget id (k_mem k)) as [m|]; [|reflexivity].
    apply N.ltb_lt in H. rewrite H. reflexivity.
  - unfold process_dead. destruct (aget id (k_mem k)) as [m|]; [|reflexivity]. apply N.ltb_lt in H. rewrite H. reflexivity.
Qed.
Print Assumptions C32_stale_gossip_ignored.
Example C32_stale_gossip_ignored_ex :
  stale ex_cfg (ex_at ex_suspected) (KAlive (ex_al 3 2 102) 30) /\ stale ex_cfg (ex_at ex_suspected) (KSuspect 2 2 8 30) /\
  stale ex_cfg (ex_at ex_suspected) (KDead 2 2 2 30) /\ stale ex_cfg (ex_at ex_suspected) (KDead 4 1 7 30).
Proof. vm_compute. repeat split; try discriminate. eexists. repeat split; discriminate. Qed.

(** * C33 *)
Theorem C33_suspect_idempotent : forall C t0 os inc id from now now',
  let k1 := core_at C t0 (os ++ [KSuspect inc id from now]) in
  inc < u32_max -> core_step C k1 (KSuspect inc id from now') = (k1, []).
Proof.
  intros C t0 os inc id from now now' k1 L. unfold k1, core_at. rewrite core_run_fst, fold_left_app. cbn [fold_left core_step fst].
  rewrite <- core_run_fst. f_equal. apply suspect_twice; [apply kinv_at|exact L].
Qed.
Print Assumptions C33_suspect_idempotent.
Theorem C33_dead_idempotent : forall C t0 os inc id from now now',
  let k1 := core_at C t0 (os ++ [KDead inc id from now]) in
  inc < u32_max -> core_step C k1 (KDead inc id from now') = (k1, []).
Proof.
  intros C t0 os inc id from now now' k1 L. unfold k1, core_at. rewrite core_run_fst, fold_left_app. cbn [fold_left core_step fst].
  rewrite <- core_run_fst. f_equal. apply dead_twice; [apply kinv_at|exact L].
Qed.
Print Assumptions C33_dead_idempotent.
(** An alive message delivered again changes nothing, except that a name
    conflict is reported again. *)
Theorem C33_alive_idempotent : forall C t0 os al now,
  let k1 := core_at C t0 (os ++ [KAlive al now]) in
  al_inc al < u32_max ->
  core_step C k1 (KAlive al now) = (k1, []) \/
  exists a b, core_step C k1 (KAlive al now) = (k_set_ev (k_ev k1 ++ [EvConflict a b]) k1, []).
Proof.
  intros C t0 os al now k1 L. unfold k1, core_at. rewrite core_run_fst, fold_left_app. cbn [fold_left core_step fst].
  rewrite <- core_run_fst. destruct (alive_twice C al now (core_at C t0 os) (kinv_at C t0 os) L) as [E|(e & E & CF)]; unfold core_at in E.
  - left. rewrite E. reflexivity.
  - right. specialize (CF e (or_introl eq_refl)). destruct e; try contradiction. do 2 eexists. rewrite E. reflexivity.
Qed.
Print Assumptions C33_alive_idempotent.
Example C33_ex :
  let k1 := ex_at (ex_joined ++ [KSuspect 7 2 9 20]) in
  view (rec_at k1 2) = Some (PSuspect, 7, 102) /\ k1 <> ex_at ex_joined /\
  core_step ex_cfg (ex_at (ex_joined ++ [KDead 7 2 2 20])) (KDead 7 2 2 99) = (ex_at (ex_joined ++ [KDead 7 2 2 20]), []) /\
  core_step ex_cfg (ex_at ex_joined) (KAlive (ex_al 3 2 102) 10) = (ex_at ex_joined, []).
Proof.
  split; [vm_compute; reflexivity|]. split; [|split; vm_compute; reflexivity].
  intros E. apply (f_equal (fun k => view (rec_at k 2))) in E. vm_compute in E. discriminate.
Qed.

(** * C34 *)
(** Replaying the join and leave events about one member: joined or not, and
    [None] as soon as one does not fit. *)
Definition replay1 (id : N) (b : option bool) (e : event) : option bool :=
  match e, b with
  | EvJoined s, Some j => if ns_id s =? id then if j then None else Some true else b
  | EvLeft s, Some j => if ns_id s =? id then if j then Some false else None else b
  | _, _ => b
  end.
Definition replay (id : N) (l : list event) : option bool := fold_left (replay1 id) l (Some false).
Lemma replay_track id l : replay id l = track id l.
Proof.
  unfold replay, track. generalize (Some false). induction l as [|e l IH]; intros b; [reflexivity|]. cbn [fold_left]. rewrite IH. f_equal.
  destruct e; cbn; try (destruct b; reflexivity); destruct b as [[|]|]; destruct (ns_id s =? id); reflexivity.
Qed.
(** The events handed to the application followed by those still pending
    alternate and end in the table; the driver may hand back ([requeue_event])
    only events that are not about membership. *)
Theorem C34_events_mirror_table : forall C t0 os id,
  Forall (fun o => match o with KRequeue e => quiet e = true | _ => True end) os ->
  let '(k, out) := core_run C (core_new C t0) os in
  replay id (out ++ k_ev k) =
  Some match rec_at k id with
       | Some m => match m_state m with PDead | PLeft => false | _ => true end
       | None => false
       end.
Proof.
  intros C t0 os id F. pose proof (mirrored_run C os (core_new C t0) [] F (kinv_new C t0) (mirrored_new C t0)) as H.
  destruct (core_run C (core_new C t0) os) as [k out]. cbn [app] in H. rewrite replay_track, (H id). f_equal. unfold live.
  destruct (rec_at k id) as [m|]; [|reflexivity]. destruct (m_state m); reflexivity.
Qed.
Print Assumptions C34_events_mirror_table.
Example C34_events_mirror_table_ex :
  let os := ex_died ++ [KPoll; KPoll; KAlive (ex_al 4 2 102) 7001; KDead 4 2 2 7002; KAlive (ex_al 9 3 103) 7003] in
  let '(k, out) := core_run ex_cfg (core_new ex_cfg 0) os in
  length out = 2%nat /\ replay 2 (out ++ k_ev k) = Some false /\ replay 2 out = Some true /\ replay 3 (out ++ k_ev k) = Some true.
Proof. vm_compute. repeat split. Qed.

(** * C35, the timers themselves; waking up is in PropsEndpoint.v *)
Theorem C35_suspect_has_timer : forall C t0 os id m,
  let k := core_at C t0 os in
  rec_at k id = Some m ->
  (m_state m = PSuspect <-> exists s, m_susp m = Some s) /\
  (forall s, m_susp m = Some s -> exists d, di_earliest (k_sidx k) = Some d /\ d <= s_deadline s).
Proof.
  intros C t0 os id m k G. pose proof (kinv_at C t0 os) as V. fold k in V. pose proof (ki_rec _ _ V _ _ G) as [_ ST]. split.
  - split; [intros E; rewrite E in ST; destruct (m_susp m); [eauto|congruence]|].
    intros (s & E). destruct (m_state m); try congruence; contradiction.
  - intros s E. pose proof (ki_idx _ _ V id) as H. rewrite G in H. cbn in H. rewrite E in H. cbn in H.
    destruct (aget id (di_cur (k_sidx k))) as [[d0 s0]|] eqn:A; [|discriminate]. injection H as H.
    pose proof (earliest_min _ (ki_didx _ _ V)) as M. destruct (di_earliest (k_sidx k)) as [d|]; [|rewrite M in A; discriminate].
    exists d. split; [reflexivity|]. destruct M as [_ M]. specialize (M id d0 s0 A). subst d0. exact M.
Qed.
Print Assumptions C35_suspect_has_timer.
(** and no timer without a suspect *)
Theorem C35_no_stray_timer : forall C t0 os d,
  let k := core_at C t0 os in
  di_earliest (k_sidx k) = Some d ->
  exists id m s, rec_at k id = Some m /\ m_state m = PSuspect /\ m_susp m = Some s /\ s_deadline s = d.
Proof.
  intros C t0 os d k E. pose proof (kinv_at C t0 os) as V. fold k in V.
  pose proof (earliest_min _ (ki_didx _ _ V)) as M. rewrite E in M. destruct M as [(id & s0 & A) _].
  pose proof (ki_idx _ _ V id) as H. rewrite A in H. cbn in H. destruct (rec_at k id) as [m|] eqn:G; [|discriminate].
  cbn in H. destruct (m_susp m) as [s|] eqn:S; [|discriminate]. injection H as ->. exists id, m, s. split; [exact G|]. split; [|auto].
  pose proof (ki_rec _ _ V _ _ G) as [_ ST]. destruct (m_state m); try congruence; contradiction.
Qed.
Print Assumptions C35_no_stray_timer.
Example C35_ex :
  let os := ex_joined ++ [KAlive (ex_al 1 3 103) 11; KSuspect 3 2 9 20; KSuspect 1 3 9 50] in
  di_earliest (k_sidx (ex_at os)) = Some 1020 /\ view (rec_at (ex_at os) 3) = Some (PSuspect, 1, 103) /\
  di_earliest (k_sidx (ex_at (os ++ [KAlive (ex_al 4 2 102) 60]))) = Some 1050 /\
  di_earliest (k_sidx (ex_at (os ++ [KExpire 1050]))) = None.
Proof. vm_compute. repeat split. Qed.

(** * C36 *)
Definition timed_out (k : core) (now id : N) (m : member) : Prop :=
  rec_at k id = Some m /\ exists s, m_susp m = Some s /\ s_deadline s <= now.
Theorem C36_expired_suspicions_die : forall C t0 os now,
  let k := core_at C t0 os in let k' := fst (core_step C k (KExpire now)) in
  enc_ok C -> 1 + effort C (core_new C t0) os + k_n k < u64_max -> k_life k = Running ->
  (forall id m, timed_out k now id m ->
     (exists m', rec_at k' id = Some m' /\ m_state m' = PDead /\ m_inc m' = m_inc m /\ m_susp m' = None /\ m_change m' = now) /\
     queued (id, MDead (m_inc m) id (c_id C)) k') /\
  (forall id, (forall m, ~ timed_out k now id m) -> rec_at k' id = rec_at k id) /\
  (exists gone, k_ev k' = k_ev k ++ map EvLeft gone /\ NoDup (map ns_id gone) /\
     forall s, In s gone <-> exists m, timed_out k now (ns_id s) m /\ s = m_server m).
Proof.
  intros C t0 os now k k' HE L R. pose proof (kinv_at C t0 os) as V. fold k in V.
  assert (forall id m, timed_out k now id m <-> rec_at k id = Some m /\ due now m = true) as TD.
  { intros id m. unfold timed_out, due. split; intros [G H]; (split; [exact G|]).
    - destruct H as (su & -> & H). apply N.leb_le. exact H.
    - destruct (m_susp m) as [su|]; [|discriminate]. exists su. split; [reflexivity|]. apply N.leb_le. exact H. }
  set (ids := expired_ids now (k_mem k)).
  assert (forall id, In id ids <-> exists m, timed_out k now id m) as HI.
  { intros id. unfold ids. rewrite in_expired by exact (ki_nodup _ _ V). split; intros (m & H); exists m; apply TD, H. }
  assert (blen ids <= k_n k) as LL.
  { unfold ids, expired_ids, k_n, blen. rewrite map_length.
    pose proof (filter_len_le (fun p : N * member => match m_susp (snd p) with Some s => s_deadline s <=? now | None => false end) (k_mem k)). lia. }
  destruct (expire_fold C now ids k (1 + effort C (core_new C t0) os) V R (kq_run C t0 os HE) HE ltac:(unfold blen in LL; lia) (expired_nodup now _ (ki_nodup _ _ V)))
    as (_ & _ & _ & D1 & D2 & _ & D4).
  { intros id H. apply HI in H. destruct H as (m & H). exists m. apply TD, H. }
  change (fold_left _ ids k) with k' in *. split; [|split].
  - intros id m H. destruct (D2 id m (proj2 (HI id) (ex_intro _ m H)) (proj1 H)) as [E Q]. split; [|exact Q].
    eexists. split; [exact E|]. repeat split.
  - intros id H. apply D1. intros Hi. apply HI in Hi. destruct Hi as (m & Hm). exact (H m Hm).
  - exists (map (fun id => match rec_at k id with Some m => m_server m | None => mkNS 0 0 PAlive [] 0 0 end) ids).
    assert (forall id, In id ids -> exists m, timed_out k now id m /\ rec_at k id = Some m /\ ns_id (m_server m) = id) as HM.
    { intros id H. apply HI in H. destruct H as (m & H). exists m. split; [exact H|]. destruct H as [G _]. split; [exact G|]. apply (ki_rec _ _ V _ _ G). }
    split; [|split].
    + rewrite D4, map_map. f_equal. apply map_ext_in. intros id H. destruct (HM id H) as (m & _ & G & _). unfold kill_ev. rewrite G. reflexivity.
    + rewrite map_map. rewrite (map_ext_in _ (fun id => id)); [rewrite map_id; apply expired_nodup, (ki_nodup _ _ V)|].
      intros id H. destruct (HM id H) as (m & _ & G & E). rewrite G. exact E.
    + intros s. rewrite in_map_iff. split.
      * intros (id & E & H). destruct (HM id H) as (m & T & G & EI). rewrite G in E. exists m. split; [|congruence]. rewrite <- E, EI. exact T.
      * intros (m & T & E). exists (ns_id s). split; [|apply HI; eauto]. destruct T as [G _]. rewrite G. congruence.
Qed.
Print Assumptions C36_expired_suspicions_die.
Example C36_expired_suspicions_die_ex :
  let os := ex_joined ++ [KAlive (ex_al 1 3 103) 11; KSuspect 3 2 9 20; KSuspect 1 3 9 50] in
  let k' := fst (core_step ex_cfg (ex_at os) (KExpire 1030)) in
  timed_out (ex_at os) 1030 2 (mkM (mkNS 2 102 PAlive [4] 1 1) 3 20 PSuspect (Some (susp_new 9 0 1000 6000 20)) 2) /\
  view (rec_at k' 2) = Some (PDead, 3, 102) /\ view (rec_at k' 3) = Some (PSuspect, 1, 103) /\
  k_ev k' = k_ev (ex_at os) ++ [EvLeft (mkNS 2 102 PAlive [4] 1 1)].
Proof. split; [split; [vm_compute; reflexivity|]; eexists; split; [reflexivity|vm_compute; discriminate]|]. vm_compute. repeat split. Qed.

(** * C46 *)
Theorem C46_cap_respected : forall C t0 os mx,
  c_max_members C = Some mx -> blen (k_mem (core_at C t0 os)) <= N.max mx 1.
Proof. intros C t0 os mx E. pose proof (cap_run C os t0) as H. unfold cap_ok in H. rewrite E in H. exact H. Qed.
Print Assumptions C46_cap_respected.
(** Gossip about a known member is processed as if there were no cap. *)
Definition uncapped (C : cfg) : cfg :=
  mkCfg (c_id C) (c_addr C) (c_pv C) (c_dv C) (c_inc0 C) (c_meta0 C) (c_meta_max C) (c_mult C) (c_sto C) (c_lg C) (c_lim C)
    (c_aware_max C) (c_reclaim C) (c_dead_window C) None (c_rng C) (c_enc C) (c_mtu C) (c_frame_max C) (c_snapshot0 C) (c_tiers C)
    (c_probe_interval C) (c_probe_timeout C) (c_indirect C) (c_gossip_interval C) (c_gossip_nodes C) (c_pp_interval C)
    (c_stream_timeout C) (c_max_forwards C) (c_ack_members_only C).
Theorem C46_known_members_unaffected : forall C k o,
  match o with
  | KAlive al _ => rec_at k (al_id al) <> None
  | KMerge l _ => False
  | _ => True
  end -> core_step C k o = core_step (uncapped C) k o.
Proof.
  intros C k o H. destruct o; try contradiction; try reflexivity.
  cbn [core_step]. unfold process_alive, alive_decided, rec_at in *. destruct (aget (al_id al) (k_mem k)); [reflexivity|contradiction].
Qed.
Print Assumptions C46_known_members_unaffected.
(** At the cap an unknown member is dropped without a trace. *)
Theorem C46_full_table_rejects : forall C k al now mx,
  c_max_members C = Some mx -> mx <= blen (k_mem k) -> rec_at k (al_id al) = None ->
  core_step C k (KAlive al now) = (k, []).
Proof.
  intros C k al now mx E L G. cbn [core_step]. f_equal. unfold process_alive. destruct (negb _); [reflexivity|]. destruct (k_adm _ _); [|reflexivity].
  unfold alive_decided, rec_at in *. rewrite G, E. apply N.leb_le in L. unfold k_n. rewrite L. reflexivity.
Qed.
Print Assumptions C46_full_table_rejects.
Example C46_ex :
  let os := [KAlive (ex_al 1 2 102) 1; KAlive (ex_al 1 3 103) 2; KMerge [mkPNS 1 4 104 PAlive [] 1 1; mkPNS 9 2 102 PAlive [] 1 1] 3] in
  blen (k_mem (ex_at os)) = 3 /\ rec_at (ex_at os) 4 = None /\ view (rec_at (ex_at os) 2) = Some (PAlive, 9, 102).
Proof. vm_compute. repeat split. Qed.

(** * C47 *)
Theorem C47_prunes_only_long_departed : forall C t0 os now id,
  let k := core_at C t0 os in
  rec_at (fst (core_step C k (KReset now))) id =
  match rec_at k id with
  | Some m => match m_state m with
              | PDead | PLeft => if (id =? c_id C) || (tsub now (m_change m) <=? c_dead_window C) then Some m else None
              | _ => Some m
              end
  | None => None
  end.
Proof.
  intros C t0 os now id k. cbn [core_step fst]. rewrite (rec_reset C now k id (kinv_at C t0 os)).
  destruct (rec_at k id) as [m|]; [|reflexivity]. unfold kept, removable. cbn [fst snd]. rewrite N.ltb_antisym.
  destruct (m_state m); cbn [dead_or_left]; rewrite ?andb_false_r, ?andb_true_r; try reflexivity;
    destruct (id =? c_id C); cbn; try reflexivity; rewrite negb_involutive; reflexivity.
Qed.
Print Assumptions C47_prunes_only_long_departed.
Example C47_prunes_only_long_departed_ex :
  rec_at (ex_at (ex_died ++ [KReset 37000])) 2 = rec_at (ex_at ex_died) 2 /\
  rec_at (ex_at (ex_died ++ [KReset 37001])) 2 = None /\
  view (rec_at (ex_at (ex_suspected ++ [KReset 999999])) 2) = Some (PSuspect, 3, 102) /\
  view (rec_at (ex_at [KLeave 5; KReset 999999]) 1) = Some (PLeft, 5, 101).
Proof. vm_compute. repeat split. Qed.

(** * C49 *)
Theorem C49_merge_is_gossip : forall C k l now,
  fst (core_step C k (KMerge l now)) = fst (core_run C k (flat_map (as_gossip C now) l)).
Proof.
  intros C k l now. rewrite core_run_fst. cbn [core_step fst]. unfold merge_state. revert k.
  induction l as [|p l IH]; intros k; [reflexivity|]. cbn [flat_map fold_left]. rewrite fold_left_app, <- IH. f_equal.
  unfold merge_one, as_gossip, pns_alive. destruct (pn_state p); reflexivity.
Qed.
Print Assumptions C49_merge_is_gossip.
(** No listing kills a member it does not report as having left. *)
Theorem C49_merge_never_kills : forall C t0 os l now id m,
  let k := core_at C t0 os in
  (forall p, In p l -> pn_id p = id -> pn_state p <> PLeft) ->
  rec_at k id = Some m -> ~ departed m ->
  exists m', rec_at (fst (core_step C k (KMerge l now))) id = Some m' /\ ~ departed m'.
Proof.
  intros C t0 os l now id m k H G D.
  assert (forall r, live r = true <-> exists m, r = Some m /\ ~ departed m) as HL.
  { intros [x|]; cbn; [|split; [discriminate|intros (? & ? & _); discriminate]]. pose proof (departed_dl x) as DX.
    destruct (dead_or_left (m_state x)); cbn; split; intros A; try discriminate; try reflexivity.
    - destruct A as (y & [= <-] & A). exfalso. tauto.
    - exists x. split; [reflexivity|]. intros B. apply DX in B. discriminate. }
  apply HL. apply merge_keeps_live; [apply kinv_at|exact H|]. apply HL. eauto.
Qed.
Print Assumptions C49_merge_never_kills.
Example C49_ex :
  let l := [mkPNS 9 2 102 PDead [] 1 1; mkPNS 1 3 103 PAlive [8] 1 1; mkPNS 1 3 103 PLeft [] 1 1; mkPNS 7 1 101 PSuspect [] 1 1] in
  flat_map (as_gossip ex_cfg 50) l =
    [KSuspect 9 2 1 50; KAlive (mkAlive 1 3 103 [8] 1 1) 50; KDead 1 3 1 50; KSuspect 7 1 1 50] /\
  let k := ex_at (ex_joined ++ [KMerge l 50]) in
  view (rec_at k 2) = Some (PSuspect, 9, 102) /\ view (rec_at k 3) = Some (PDead, 1, 103) /\ view (rec_at k 1) = Some (PAlive, 8, 101).
Proof. vm_compute. repeat split. Qed.

(** * C58 *)
Theorem C58_version_reflects_changes : forall C t0 os1 os2,
  let k := core_at C t0 os1 in let k' := fst (core_run C k os2) in
  effort C k os2 < two64 -> k_ver k' = k_ver k ->
  (forall id, option_map (fun m => (m_server m, m_inc m, m_state m)) (rec_at k' id)
            = option_map (fun m => (m_server m, m_inc m, m_state m)) (rec_at k id)) /\
  k_aw k' = k_aw k.
Proof.
  intros C t0 os1 os2 k k' L E. apply (ver_same C os2 k (kinv_at C t0 os1)); [|exact L|exact E].
  apply ver_lt; [apply kinv_new|vm_compute; reflexivity].
Qed.
Print Assumptions C58_version_reflects_changes.
Example C58_version_reflects_changes_ex :
  map (fun os => k_ver (ex_at os)) [[]; ex_joined; ex_suspected; ex_died; ex_died ++ [KReset 40000]; ex_joined ++ [KPoll; KTake 2 100; KAge 2 5; KReset 100]]
  = [1; 2; 3; 4; 5; 2].
Proof. vm_compute. reflexivity. Qed.

(** * C62 *)
(** Another member is recorded as having Left, which makes its name free for
    anyone at once, only through a dead message that names itself as the
    source; neither push/pull nor the failure detector can do it. *)
Theorem C62_left_only_self_announced : forall C t0 os o id m m',
  id <> c_id C ->
  rec_at (core_at C t0 os) id = Some m -> m_state m <> PLeft ->
  rec_at (fst (core_step C (core_at C t0 os) o)) id = Some m' -> m_state m' = PLeft ->
  exists inc now, o = KDead inc id id now /\ m_inc m <= inc.
Proof.
  intros C t0 os o id m m' NL G NS G' S. destruct (left_only C o (core_at C t0 os) id (kinv_at C t0 os) NL) as [H|H].
  - rewrite G, G' in H. cbn in H. destruct (pstate_eqb_spec (m_state m) PLeft); [contradiction|].
    rewrite S in H. cbn in H. discriminate (H eq_refl).
  - destruct H as (inc & now & E & H). exists inc, now. split; [exact E|]. exact (H m G).
Qed.
Print Assumptions C62_left_only_self_announced.
Example C62_left_only_self_announced_ex :
  view (rec_at (ex_at ex_joined) 2) = Some (PAlive, 3, 102) /\
  view (rec_at (ex_at (ex_joined ++ [KDead 3 2 2 20])) 2) = Some (PLeft, 3, 102) /\
  view (rec_at (ex_at (ex_joined ++ [KDead 3 2 9 20])) 2) = Some (PDead, 3, 102) /\
  view (rec_at (ex_at (ex_joined ++ [KMerge [mkPNS 3 2 102 PLeft [] 1 1] 20])) 2) = Some (PDead, 3, 102).
Proof. vm_compute. repeat split. Qed.
