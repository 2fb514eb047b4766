(** Exactly what a failure detector sends: the direct probe, and the help asked
    for when it is not answered. *)
From Coq Require Import Permutation.
From Verif Require Import EndpointModel MapFacts BaseFacts CoreFacts CoreInv CoreSteps CoreTrans CoreHist EndpointSteps EndpointInv EndpointHist EndpointRuns EndpointFacts EndpointProbes EndpointUpkeep EndpointUser EndpointDetect.
Local Open Scope N_scope.

Section Escalate.
Variable C : cfg.
Notation LID := (c_id C).
Notation kinv := (kinv C).
Notation recd e id := (aget id (k_mem (e_core e))).
Notation any := (fun _ : N => True).

(** ** Someone is chosen *)
Lemma scan_none t : forall fuel idx, blen t <> 0 -> scan C fuel idx t = None ->
  forall o p, (o < fuel)%nat -> nth_error t (N.to_nat ((idx + N.of_nat o) mod blen t)) = Some p -> probeable C p = false.
Proof.
  induction fuel as [|fuel IH]; intros idx NZ H o p LT E; [lia|]. cbn [scan] in H. cbv zeta in H. destruct o as [|o].
  - cbn [N.of_nat] in E. rewrite N.add_0_r in E. rewrite E in H. destruct (probeable C p); [discriminate|reflexivity].
  - assert (scan C fuel (idx + 1) t = None) as H1 by (destruct (nth_error _ _) as [x|]; [destruct (probeable C x); [discriminate|exact H]|exact H]).
    apply (IH (idx + 1) NZ H1 o p); [lia|]. rewrite <- E. do 3 f_equal. lia.
Qed.
Lemma scan_some t idx p : In p t -> probeable C p = true -> scan C (length t) idx t <> None.
Proof.
  intros IN P H. assert (blen t <> 0) as NZ by (destruct t; [destruct IN|unfold blen; cbn; lia]).
  apply In_nth_error in IN as (i & E). assert (i < length t)%nat as LT by (apply nth_error_Some; congruence).
  set (n := blen t) in *. assert (N.of_nat i < n) as LI by (unfold n, blen; lia).
  pose proof (N.mod_lt idx n NZ) as LM.
  set (o := (N.of_nat i + n - idx mod n) mod n). pose proof (N.mod_lt (N.of_nat i + n - idx mod n) n NZ) as LO. fold o in LO.
  rewrite (scan_none t (length t) idx NZ H (N.to_nat o) p) in P; [discriminate|unfold n, blen in LO; lia|].
  rewrite <- E. f_equal. rewrite N2Nat.id. fold n. unfold o. rewrite N.add_mod_idemp_r by exact NZ.
  replace (idx + (N.of_nat i + n - idx mod n)) with (N.of_nat i + (1 + idx / n) * n) by (pose proof (N.div_mod idx n NZ); nia).
  rewrite N.mod_add, N.mod_small by assumption. apply Nat2N.id.
Qed.

(** ** The direct probe *)
Definition fits (m : msg) : Prop := elen C m <= c_mtu C.
Definition opening (to : N) (ping : msg) (sus : option msg) (l : list transmit) : Prop :=
  match sus with
  | Some s =>
    (assembled C [ping; s] <= c_mtu C /\ l = [TCompound to [ping; s]]) \/
    (c_mtu C < assembled C [ping; s] /\ exists l1 l2, l = l1 ++ l2 /\
       (fits ping /\ l1 = [TPacket to ping] \/ ~ fits ping /\ l1 = []) /\ (fits s /\ l2 = [TPacket to s] \/ ~ fits s /\ l2 = []))
  | None => fits ping /\ l = [TPacket to ping] \/ ~ fits ping /\ l = []
  end.
Definition carries (ping : msg) (l : list transmit) : Prop :=
  exists t, In t l /\ match t with TPacket _ m => m = ping | TCompound _ ms => In ping ms end.

(** what starting a probe does, once the target is found *)
Lemma start_at now e id cur : einv C e -> runs e = true -> blen (e_acks e) + 1 < two32 ->
  scan C (length (k_mem (e_core e))) (e_pidx e) (k_mem (e_core e)) = Some (id, cur) ->
  let e' := start_probe C now e in
  e_pidx e' = cur /\
  exists m q l, probeable C (id, m) = true /\ recd e id = Some m /\
    q <> 0 /\ q < two32 /\ aget q (e_acks e) = None /\ aget q (e_probes e) = None /\ aget q (e_fwds e) = None /\
    let ping := MPing q (lnode C) (mkNode id (ns_addr (m_server m))) in
    let sus := MSuspect (m_inc m) id LID in
    e_tx e' = e_tx e ++ l /\ opening (ns_addr (m_server m)) ping (if pstate_eqb (m_state m) PSuspect then Some sus else None) l /\
    e_core e' = e_core e /\ (forall j, j <> q -> aget j (e_probes e') = aget j (e_probes e)) /\
    exists p, aget q (e_probes e') = Some p /\ p_target p = m_server m /\ p_inc p = m_inc m /\ p_gen p = m_gen m /\ p_sent p = now /\
      p_kind p = PKDetection /\ p_phase p = PhDirect (tadd now (c_probe_timeout C)) /\
      p_fail p = tadd now (scale_timeout (k_aw (e_core e)) (c_probe_interval C)) /\ (p_disp p = true <-> carries ping l).
Proof.
  intros I R B SC. cbv zeta. unfold start_probe. rewrite R. cbn [negb]. unfold next_target. rewrite SC.
  apply scan_spec in SC as (m & i & IM & PM & _). apply nth_error_In in IM.
  assert (recd e id = Some m) as G by (apply aget_of_in; [apply (ki_nodup _ _ (ei_core _ _ I))|exact IM]).
  change (k_mem (e_core (e_set_pidx cur e))) with (k_mem (e_core e)). rewrite G.
  assert (einv C (e_set_pidx cur e)) as I1 by (destruct I; constructor; auto).
  destruct (alloc_some C (e_set_pidx cur e) I1 B) as (q & e1 & A). rewrite A. apply alloc_seq_spec in A as (-> & Q0 & Q1 & U).
  apply seq_used_false in U as (U1 & U2 & U3). cbn [e_acks e_set_pidx e_probes e_fwds] in U1, U2, U3.
  cbv zeta. set (p := probe_new _ _ _ _ _ _ _). set (e2 := e_set_acks _ _).
  set (ping := MPing q _ _). set (sus := MSuspect _ _ _). set (to := ns_addr (m_server m)).
  match goal with |- context [let '(_, _) := ?x in _] => set (X := x) end.
  assert (exists l, e_tx (fst X) = e_tx e ++ l /\ opening to ping (if pstate_eqb (m_state m) PSuspect then Some sus else None) l /\
    (snd X = true <-> carries ping l) /\ (e_core (fst X) = e_core e /\ e_pidx (fst X) = cur) /\ e_probes (fst X) = aset q p (e_probes e)) as (l & T & O & D & [K PI] & P).
  { assert (forall l, carries ping l -> l <> []) as NE by (intros l (t & IT & _) ->; destruct IT).
    assert (carries ping [TPacket to ping]) as C1 by (exists (TPacket to ping); split; [left; reflexivity|reflexivity]).
    unfold X, push_fit. destruct (pstate_eqb _ _).
    - destruct (N.leb_spec (assembled C [ping; sus]) (c_mtu C)) as [L|L].
      + exists [TCompound to [ping; sus]]. split; [reflexivity|]. split; [left; auto|]. split; [|repeat split]. split; [|reflexivity].
        intros _. exists (TCompound to [ping; sus]). split; left; reflexivity.
      + destruct (N.leb_spec (elen C ping) (c_mtu C)) as [F1|F1]; destruct (N.leb_spec (elen C sus) (c_mtu C)) as [F2|F2]; cbn [fst snd].
        * exists [TPacket to ping; TPacket to sus]. split; [cbn [push e_tx e_set_tx]; rewrite <- app_assoc; reflexivity|]. split.
          { right. split; [exact L|]. exists [TPacket to ping], [TPacket to sus]. auto. }
          split; [|repeat split]. split; [|reflexivity]. intros _. exists (TPacket to ping). split; [left|]; reflexivity.
        * exists [TPacket to ping]. split; [reflexivity|]. split.
          { right. split; [exact L|]. exists [TPacket to ping], []. split; [reflexivity|]. split; [auto|]. right. unfold fits. split; [lia|reflexivity]. }
          split; [|repeat split]. split; auto.
        * exists [TPacket to sus]. split; [reflexivity|]. split.
          { right. split; [exact L|]. exists [], [TPacket to sus]. split; [reflexivity|]. split; [|auto]. right. unfold fits. split; [lia|reflexivity]. }
          split; [|repeat split]. split; [discriminate|]. intros (t & [<-|[]] & X1). discriminate X1.
        * exists []. split; [symmetry; apply app_nil_r|]. split.
          { right. split; [exact L|]. exists [], []. split; [reflexivity|]. unfold fits. split; right; (split; [lia|reflexivity]). }
          split; [|repeat split]. split; [discriminate|]. intros X1. destruct (NE _ X1 eq_refl).
    - destruct (N.leb_spec (elen C ping) (c_mtu C)) as [F1|F1]; cbn [fst snd].
      + exists [TPacket to ping]. split; [reflexivity|]. split; [left; auto|]. split; [|repeat split]. split; auto.
      + exists []. split; [symmetry; apply app_nil_r|]. split; [right; unfold fits; split; [lia|reflexivity]|].
        split; [|repeat split]. split; [discriminate|]. intros X1. destruct (NE _ X1 eq_refl). }
  destruct X as [e3 sent]. cbn [fst snd] in *. split; [exact PI|]. exists m, q, l. split; [exact PM|]. split; [reflexivity|].
  split; [exact Q0|]. split; [exact Q1|]. split; [exact U3|]. split; [exact U1|]. split; [exact U2|].
  split; [exact T|]. split; [exact O|]. split; [exact K|]. cbn [e_probes e_set_probes]. rewrite P. split.
  - intros j NE. rewrite !aget_aset. destruct (N.eqb_spec j q); [contradiction|reflexivity].
  - exists (p_set_disp sent p). rewrite aget_aset_eq. split; [reflexivity|]. unfold p. cbn. auto 10.
Qed.
Lemma start_exact now e x : einv C e -> runs e = true -> blen (e_acks e) + 1 < two32 -> In x (k_mem (e_core e)) -> probeable C x = true ->
  let e' := start_probe C now e in
  exists id m q l, probeable C (id, m) = true /\ recd e id = Some m /\
    q <> 0 /\ q < two32 /\ aget q (e_acks e) = None /\ aget q (e_probes e) = None /\ aget q (e_fwds e) = None /\
    let ping := MPing q (lnode C) (mkNode id (ns_addr (m_server m))) in
    let sus := MSuspect (m_inc m) id LID in
    e_tx e' = e_tx e ++ l /\ opening (ns_addr (m_server m)) ping (if pstate_eqb (m_state m) PSuspect then Some sus else None) l /\
    e_core e' = e_core e /\ (forall j, j <> q -> aget j (e_probes e') = aget j (e_probes e)) /\
    exists p, aget q (e_probes e') = Some p /\ p_target p = m_server m /\ p_inc p = m_inc m /\ p_gen p = m_gen m /\ p_sent p = now /\
      p_kind p = PKDetection /\ p_phase p = PhDirect (tadd now (c_probe_timeout C)) /\
      p_fail p = tadd now (scale_timeout (k_aw (e_core e)) (c_probe_interval C)) /\ (p_disp p = true <-> carries ping l).
Proof.
  intros I R B IN PX. cbv zeta.
  destruct (scan C (length (k_mem (e_core e))) (e_pidx e) (k_mem (e_core e))) as [[id cur]|] eqn:SC; [|destruct (scan_some _ _ _ IN PX SC)].
  destruct (start_at now e id cur I R B SC) as (_ & m & q & l & H). exists id, m, q, l. exact H.
Qed.

(** ** Nobody comes to life on a timer *)
(** no news that somebody is alive or has new metadata *)
Definition mild (o : cop) : Prop := match o with KAlive _ _ | KMerge _ _ | KMeta _ => False | _ => True end.
Lemma mild_alive o now k k' id m' : kinv k -> kstep C o now k k' -> mild o -> rec_at k' id = Some m' -> m_state m' = PAlive ->
  exists m, rec_at k id = Some m /\ m_state m = PAlive /\ m_server m' = m_server m.
Proof.
  intros V S M G A. pose proof (step_trans C o now k k' id V S) as T. rewrite G in T. revert A.
  inversion T; subst; try (cbn; discriminate).
  - intros A. exists m'. auto.
  - intros _. exists m. auto.
  - intros A. exists m. auto.
  - cbn. destruct (id =? from); discriminate.
  - match goal with H : origin _ _ _ _ |- _ => destruct o; try contradiction; destruct H as [_ X] end; [discriminate|discriminate|destruct X as (? & ? & X & _); discriminate].
  - match goal with H : origin _ _ _ _ |- _ => destruct o; try contradiction; destruct H as [_ X] end; [discriminate|discriminate|destruct X as (? & ? & X & _); discriminate].
  - destruct M.
  - intros A. exists m. auto.
Qed.
Lemma mild_steps o now k k' id : kinv k -> ksteps C o now k k' -> mild o -> forall m', rec_at k' id = Some m' -> m_state m' = PAlive ->
  exists m, rec_at k id = Some m /\ m_state m = PAlive /\ m_server m' = m_server m.
Proof.
  intros V S M. revert V. induction S as [|k1 k2 k3 S1 _ IH]; intros V m' G A; [exists m'; auto|].
  destruct (IH (kinv_step C o now _ _ V S1) m' G A) as (m2 & G2 & A2 & E2).
  destruct (mild_alive o now k1 k2 id m2 V S1 M G2 A2) as (m1 & G1 & A1 & E1). exists m1. split; [exact G1|]. split; [exact A1|congruence].
Qed.
Lemma ticks_alive u e e' id m' : kinv (e_core e) -> ticks C any u e e' -> recd e' id = Some m' -> m_state m' = PAlive ->
  exists m, recd e id = Some m /\ m_state m = PAlive /\ m_server m' = m_server m.
Proof.
  intros V (os & E & F). change (recd e' id) with (rec_at (e_core e') id). change (recd e id) with (rec_at (e_core e) id). rewrite E, core_run_fst. clear E e'.
  revert V. generalize (e_core e) as k. clear e. induction os as [|o os IH]; intros k V G A; [exists m'; auto|]. cbn [fold_left] in G.
  apply Forall_cons_iff in F as [M F]. assert (mild o) as M' by (destruct M; exact Logic.I). clear M. rename M' into M. destruct (IH F _ (kinv_core_step C k o V) G A) as (m1 & G1 & A1 & E1).
  destruct (mild_steps o _ k _ id V (core_step_steps C k o V) M m1 G1 A1) as (m0 & G0 & A0 & E0). exists m0. split; [exact G0|]. split; [exact A0|congruence].
Qed.

(** ** Who may help *)
Definition eligible (e : ep) (target to : N) : Prop :=
  exists id m, recd e id = Some m /\ m_state m = PAlive /\ ns_addr (m_server m) = to /\ to <> c_addr C /\ to <> target.
Lemma distinct_all seen l a : In a l -> ~ In a seen -> In a (distinct_addrs seen l).
Proof.
  revert seen. induction l as [|b l IH]; cbn [distinct_addrs]; intros seen H NI; [destruct H|].
  destruct (existsb (N.eqb b) seen) eqn:E.
  - apply IH; [|exact NI]. destruct H as [->|H]; [|exact H]. exfalso. apply NI. apply existsb_exists in E as (x & X & Y). apply N.eqb_eq in Y. congruence.
  - destruct (N.eq_dec a b) as [->|NE]; [left; reflexivity|]. right. apply IH; [destruct H; congruence|]. intros [->|X]; contradiction.
Qed.
Lemma helpers_eligible e target to : kinv (e_core e) -> In to (fan_helpers C target e) <-> eligible e target to.
Proof.
  intros V. unfold fan_helpers. split.
  - intros H. apply distinct_in in H as [H _]. apply in_map_iff in H as ([id m] & <- & H). apply filter_In in H as [H P]. cbn [snd] in *.
    apply andb_prop in P as [P P3]. apply andb_prop in P as [P1 P2]. exists id, m. split; [apply aget_of_in; [apply (ki_nodup _ _ V)|exact H]|].
    split; [destruct (m_state m); try discriminate; reflexivity|]. split; [reflexivity|].
    split; intros X; rewrite X in *; rewrite N.eqb_refl in *; discriminate.
  - intros (id & m & G & A & <- & N1 & N2). apply distinct_all; [|intros []]. apply in_map_iff. exists (id, m). split; [reflexivity|]. apply filter_In.
    split; [apply aget_in, G|]. cbn [snd]. rewrite A. apply N.eqb_neq in N1, N2. rewrite N1, N2. reflexivity.
Qed.
Lemma ticks_eligible u e e' target to : kinv (e_core e) -> ticks C any u e e' -> eligible e' target to -> eligible e target to.
Proof.
  intros V T (id & m & G & A & E & N1 & N2). destruct (ticks_alive u e e' id m V T G A) as (m0 & G0 & A0 & E0). exists id, m0. rewrite <- E0. auto.
Qed.

(** ** Asking for help *)
Lemma sends_all m l : elen C m <= c_mtu C -> forall e sent, fold_left (send_indirect C m) l (e, sent) = (e_set_tx (e_tx e ++ map (fun to => TPacket to m) l) e, sent ++ l).
Proof.
  intros F. induction l as [|a l IH]; intros e sent; cbn [fold_left map]; [rewrite !app_nil_r; destruct e; reflexivity|].
  unfold send_indirect at 2, push_fit. cbn [fst snd]. destruct (N.leb_spec (elen C m) (c_mtu C)); [|lia]. rewrite IH. cbn [push e_tx e_set_tx].
  rewrite <- !app_assoc. reflexivity.
Qed.
Lemma sends_none m l : c_mtu C < elen C m -> forall e sent, fold_left (send_indirect C m) l (e, sent) = (e, sent).
Proof.
  intros F. induction l as [|a l IH]; intros e sent; cbn [fold_left]; [reflexivity|].
  unfold send_indirect at 2, push_fit. cbn [fst snd]. destruct (N.leb_spec (elen C m) (c_mtu C)); [lia|]. apply IH.
Qed.
Lemma btake_len {A} n (l : list A) : blen (btake n l) = N.min n (blen l).
Proof. unfold btake, blen. rewrite firstn_length. lia. Qed.

Definition asked (e e1 : ep) (q : N) (p : probe) (peers : list N) (rid : option N) : Prop :=
  let addr := ns_addr (p_target p) in
  let ask := MIndirectPing q (lnode C) (mkNode (ns_id (p_target p)) addr) in
  (if elen C ask <=? c_mtu C
   then NoDup peers /\ blen peers = N.min (c_indirect C) (blen (fan_helpers C addr e)) /\ incl peers (fan_helpers C addr e) else peers = []) /\
  e_tx e1 = e_tx e ++ map (fun to => TPacket to ask) peers /\
  (if existsb (N.eqb (ns_id (p_target p))) (e_norel e) then rid = None /\ k_ev (e_core e1) = k_ev (e_core e)
   else rid = Some (e_sid e) /\ k_ev (e_core e1) = k_ev (e_core e) ++ [EvDial (e_sid e) addr (p_fail p)]) /\
  k_mem (e_core e1) = k_mem (e_core e).
Lemma fan_exact now e q p : runs e = true -> aget q (e_probes e) = Some p -> now < p_fail p ->
  exists e1 peers rid, asked e e1 q p peers rid /\ e_probes e1 = e_probes e /\ ticks C any now e e1 /\
    fan_out C now e q = match peers, rid with [], None => probe_fail C q now e1
      | _, _ => e_set_probes (aset q (p_set_phase (PhIndirect (blen peers) peers [] rid (p_fail p)) (p_set_disp true p)) (e_probes e1)) e1 end.
Proof.
  intros R G L. unfold fan_out. rewrite G. cbv zeta. set (addr := ns_addr (p_target p)).
  pose proof (pick_nodup C (c_indirect C) (fan_helpers C addr e) e (distinct_nodup _ _)) as ND.
  pose proof (pick_incl C (c_indirect C) (fan_helpers C addr e) e) as IC. pose proof (ticks_pick C any now (c_indirect C) (fan_helpers C addr e) e) as TP.
  assert (blen (fst (pick C (c_indirect C) (fan_helpers C addr e) e)) = N.min (c_indirect C) (blen (fan_helpers C addr e))) as LN
    by (unfold pick; cbn [fst]; rewrite btake_len, blen_shuffle; reflexivity).
  assert (exists e1, snd (pick C (c_indirect C) (fan_helpers C addr e) e) = e1 /\ k_ev (e_core e1) = k_ev (e_core e) /\ e_norel e1 = e_norel e /\ e_sid e1 = e_sid e /\
    e_tx e1 = e_tx e /\ runs e1 = true /\ e_probes e1 = e_probes e /\ k_mem (e_core e1) = k_mem (e_core e)) as (e1 & P1 & A1 & B1 & D1 & T1 & R1 & Q1 & M1)
    by (eexists; split; [reflexivity|]; repeat split; exact R).
  destruct (pick C _ _ e) as [ch e1']. cbn [fst snd] in *. subst e1'. destruct (N.leb_spec (p_fail p) now); [lia|].
  rewrite B1. set (Y := if existsb _ _ then _ else _).
  assert (e_tx (snd Y) = e_tx e /\ e_probes (snd Y) = e_probes e /\ k_mem (e_core (snd Y)) = k_mem (e_core e) /\ ticks C any now e (snd Y) /\
    (if existsb (N.eqb (ns_id (p_target p))) (e_norel e) then fst Y = None /\ k_ev (e_core (snd Y)) = k_ev (e_core e)
     else fst Y = Some (e_sid e) /\ k_ev (e_core (snd Y)) = k_ev (e_core e) ++ [EvDial (e_sid e) addr (p_fail p)])) as (T2 & Q2 & M2 & TY & E2).
  { unfold Y. destruct (existsb _ _); [cbn [fst snd]; auto 10|]. unfold reliable_ping_direct.
    pose proof (ticks_announce C any now (ns_addr (p_target p)) (OKReliablePing q) (p_fail p) (MPing q (lnode C) (mkNode (ns_id (p_target p)) (ns_addr (p_target p)))) e1) as TA.
    rewrite open_intent_eq, R1 in *.
    unfold announce in *. cbn [e_int insert_intent e_set_int e_set_iidx e_set_sid] in *. rewrite aget_aset_eq in *. cbn [fst snd] in *.
    rewrite <- T1, <- Q1, <- M1, <- A1, <- D1. split; [reflexivity|]. split; [reflexivity|]. split; [reflexivity|]. split; [eapply ticks_trans; [exact TP|exact TA]|split; reflexivity]. }
  destruct Y as [rid e2]. cbn [fst snd] in *. set (ask := MIndirectPing q _ _).
  destruct (N.leb_spec (elen C ask) (c_mtu C)) as [F|F].
  - rewrite sends_all by exact F. cbn [app]. exists (e_set_tx (e_tx e2 ++ map (fun to => TPacket to ask) ch) e2), ch, rid. split; [|split; [exact Q2|split; [eapply ticks_trans; [exact TY|apply ticks_same; reflexivity]|]]].
    + unfold asked. fold addr. fold ask. apply N.leb_le in F. rewrite F. split; [split; [exact ND|split; [exact LN|exact IC]]|]. split; [cbn [e_tx e_set_tx]; rewrite T2; reflexivity|]. split; [exact E2|exact M2].
    + destruct ch; destruct rid; reflexivity.
  - rewrite sends_none by exact F. exists e2, [], rid. split; [|split; [exact Q2|split; [exact TY|destruct rid; reflexivity]]].
    unfold asked. fold addr. fold ask. apply N.leb_gt in F. rewrite F. split; [reflexivity|]. split; [cbn [map]; rewrite app_nil_r; exact T2|]. split; [exact E2|exact M2].
Qed.

(** ** The rest of the call leaves the request standing *)
Definition stands (q : N) (e e' : ep) : Prop := forall p x ps nb r d, aget q (e_probes e) = Some p -> p_phase p = PhIndirect x ps nb r d ->
  exists p' r', aget q (e_probes e') = Some p' /\ snap p' = snap p /\ p_disp p' = p_disp p /\ p_phase p' = PhIndirect x ps nb r' d.
Lemma stands_refl q e : stands q e e.
Proof. intros p x ps nb r d G P. exists p, r. auto. Qed.
Lemma stands_same q e e' : aget q (e_probes e') = aget q (e_probes e) -> stands q e e'.
Proof. intros E p x ps nb r d G P. exists p, r. rewrite E. auto. Qed.
Lemma stands_trans q a b c : stands q a b -> stands q b c -> stands q a c.
Proof.
  intros H1 H2 p x ps nb r d G P. destruct (H1 _ _ _ _ _ _ G P) as (p1 & r1 & G1 & S1 & D1 & P1). destruct (H2 _ _ _ _ _ _ G1 P1) as (p2 & r2 & G2 & S2 & D2 & P2).
  exists p2, r2. split; [exact G2|]. split; [congruence|]. split; [congruence|exact P2].
Qed.
Lemma stands_fold {A} q (f : ep -> A -> ep) l : (forall e a, stands q e (f e a)) -> forall e, stands q e (fold_left f l e).
Proof. intros H. induction l as [|a l IH]; intros e; [apply stands_refl|]. cbn [fold_left]. eapply stands_trans; [apply H|apply IH]. Qed.
Lemma stands_new q s e e' : aget s (e_probes e) = None -> (forall j, j <> s -> aget j (e_probes e') = aget j (e_probes e)) -> stands q e e'.
Proof. intros G H p x ps nb r d GP P. assert (q <> s) as NE by congruence. rewrite (H q NE). exists p, r. auto. Qed.
Lemma stands_retire q s e : stands q e (retire_reliable s e).
Proof.
  unfold retire_reliable. destruct (aget s (e_probes e)) as [p|] eqn:G; [|apply stands_refl]. destruct (p_phase p) as [|x ps nb r d] eqn:P; [apply stands_refl|].
  intros p0 x0 ps0 nb0 r0 d0 G0 P0. cbn [e_probes e_set_probes]. rewrite aget_aset. destruct (N.eqb_spec q s) as [->|]; [|exists p0, r0; auto].
  assert (p0 = p) by congruence. subst p0. rewrite P in P0. injection P0 as -> -> -> -> ->. exists (p_set_phase (PhIndirect x0 ps0 nb0 None d0) p), None. auto.
Qed.
Lemma stands_resolve q id e : stands q e (resolve_intent id e).
Proof.
  unfold resolve_intent. destruct (aget id (e_int e)) as [i|]; [|apply stands_same; reflexivity]. cbv zeta. destruct (in_kind i); try (apply stands_same; reflexivity).
  eapply stands_trans; [|apply stands_retire]. apply stands_same. reflexivity.
Qed.
Lemma stands_intents q now e : stands q e (fire_expired_intents now e).
Proof. unfold fire_expired_intents. apply (stands_fold q (fun e id => resolve_intent id e)). intros. apply stands_resolve. Qed.
Lemma stands_forwards q now e : stands q e (fire_expired_forwards now e).
Proof. unfold fire_expired_forwards. apply (stands_fold q expire_forward). intros x s. unfold expire_forward. destruct (aget s (e_fwds x)); apply stands_same; reflexivity. Qed.
Lemma stands_start q now e : stands q e (start_probe C now e).
Proof.
  unfold start_probe. destruct (negb _); [apply stands_refl|]. unfold next_target. destruct (scan C _ _ _) as [[i cur]|]; [|apply stands_refl].
  destruct (aget i _) as [m|]; [|apply stands_same; reflexivity]. destruct (alloc_seq _) as [[s e2]|] eqn:A; [|apply stands_same; reflexivity]. apply alloc_seq_spec in A as (-> & _ & _ & U). apply seq_used_false in U as (U & _).
  cbv zeta. match goal with |- context [let '(_, _) := ?x in _] => set (X := x) end.
  match goal with X := context [aset s ?P (e_probes ?y)] |- _ => assert (e_probes (fst X) = aset s P (e_probes y)) as E end.
  { unfold X. destruct (pstate_eqb _ _); [destruct (_ <=? _); [reflexivity|]|unfold push_fit; destruct (_ <=? _); reflexivity].
    unfold push_fit. destruct (_ <=? _), (_ <=? _); reflexivity. }
  destruct X as [e' b]. cbn [fst] in E. apply (stands_new q s); [exact U|]. intros j NE. cbn [e_probes e_set_probes]. rewrite E, !aget_aset.
  destruct (N.eqb_spec j s); [contradiction|reflexivity].
Qed.
Lemma stands_probe q now e : stands q e (fire_probe C now e).
Proof.
  unfold fire_probe. destruct (e_np e) as [d|]; [|apply stands_refl]. destruct (_ <? _); [apply stands_refl|]. cbv zeta.
  match goal with |- stands _ _ (e_set_np _ (start_probe C now ?x)) => apply (stands_trans _ _ x); [|apply (stands_trans _ _ (start_probe C now x)); [apply stands_start|apply stands_same; reflexivity]] end.
  destruct (_ && _); apply stands_same; reflexivity.
Qed.
Lemma stands_rest q now e : runs e = true -> stands q (advance_fsm C now (act C (KExpire now) e)) (handle_timeout C now e).
Proof.
  intros R. unfold handle_timeout. rewrite R. cbn [negb]. set (e2 := advance_fsm C now _).
  eapply stands_trans; [apply (stands_forwards q now)|]. eapply stands_trans; [apply (stands_intents q now)|]. eapply stands_trans; [apply (stands_probe q now)|]. set (e5 := fire_probe C now _).
  apply (stands_trans _ _ (fire_gossip C now e5)); [|apply (stands_trans _ _ (fire_pushpull C now (fire_gossip C now e5)))]; [| |apply stands_same; unfold refresh_cache; destruct (_ && _); reflexivity].
  - (* gossip *) unfold fire_gossip. destruct (e_ng e5) as [dg|]; [|apply stands_refl]. destruct (now <? dg); [apply stands_refl|].
    pose proof (gossip_rest C (snd (pick C (c_gossip_nodes C) (map (fun p => ns_addr (m_server (snd p))) (filter (gossip_target C now) (k_mem (e_core e5)))) e5))) as GR.
    destruct (pick C _ _ e5) as [tg e6] eqn:PK. assert (e_probes e6 = e_probes e5) as E6 by (unfold pick in PK; injection PK as <- <-; reflexivity).
    cbn [snd] in GR. destruct tg; [apply stands_same; cbn [e_probes e_set_ng]; rewrite E6; reflexivity|]. destruct (gossip_batch C e6) as [e7 ms]. cbn [fst] in GR. apply stands_same.
    cbn [e_probes e_set_ng e_set_tx]. destruct GR as (GP & _). rewrite GP, E6. reflexivity.
  - set (e6 := fire_gossip C now e5). unfold fire_pushpull. destruct (e_npp e6); [|apply stands_refl]. destruct (_ <? _); [apply stands_refl|]. cbv zeta. apply stands_same. cbn [e_probes e_set_npp].
    destruct (live_addrs C e6) as [|y ys]; [reflexivity|]. unfold pick. match goal with |- context [btake ?a ?b] => destruct (btake a b) as [|peer tg]; [reflexivity|] end.
    unfold push_pull_direct. rewrite announce_probes. reflexivity.
Qed.

(** ** The timer call in which a direct probe runs out *)
Lemma norel_fail s now e : e_norel (probe_fail C s now e) = e_norel e.
Proof.
  unfold probe_fail. destruct (aget s (e_probes e)) as [p|]; [|reflexivity]. cbv zeta. destruct (p_phase p) as [|? ? ? [?|] ?]; destruct (p_kind p);
    try destruct (negb _); try destruct (same_instance _ _); reflexivity.
Qed.
Lemma norel_sends m l : forall st, e_norel (fst (fold_left (send_indirect C m) l st)) = e_norel (fst st).
Proof.
  induction l as [|a l IH]; intros st; [reflexivity|]. cbn [fold_left]. rewrite IH. unfold send_indirect, push_fit. destruct (_ <=? _); reflexivity.
Qed.
Lemma norel_fan now e s : e_norel (fan_out C now e s) = e_norel e.
Proof.
  unfold fan_out. destruct (aget s (e_probes e)) as [p|]; [|reflexivity]. cbv zeta. unfold pick. set (e1 := act C (KDraws _) e).
  assert (e_norel e1 = e_norel e) as E1 by reflexivity. set (ch := btake _ _). clearbody e1 ch. destruct (_ <=? _); [rewrite norel_fail; exact E1|].
  set (Y := if existsb _ _ then _ else _). assert (e_norel (snd Y) = e_norel e) as E2.
  { unfold Y. destruct (existsb _ _); [exact E1|]. unfold reliable_ping_direct. rewrite open_intent_eq. destruct (runs e1); unfold announce; cbn [e_int insert_intent e_set_int e_set_iidx e_set_sid];
      destruct (aget _ _); exact E1. }
  destruct Y as [rid e2]. cbn [snd] in E2. pose proof (norel_sends (MIndirectPing s (lnode C) (mkNode (ns_id (p_target p)) (ns_addr (p_target p)))) ch (e2, [])) as E3.
  destruct (fold_left _ ch (e2, [])) as [e3 peers]. cbn [fst] in E3. destruct (_ && _); [rewrite norel_fail|cbn [e_norel e_set_probes]]; congruence.
Qed.
Lemma fans_other q now l : forall e, runs e = true -> ~ In q l -> let e' := fold_left (fan_out C now) l e in
  aget q (e_probes e') = aget q (e_probes e) /\ e_norel e' = e_norel e /\ runs e' = true /\ ticks C any now e e' /\ follows C e e'.
Proof.
  induction l as [|s l IH]; intros e R NI; cbv zeta; cbn [fold_left]; [split; [reflexivity|]; split; [reflexivity|]; split; [exact R|]; split; [apply ticks_refl|apply fol_refl]|].
  assert (runs (fan_out C now e s) = true) as R1 by (rewrite (acts_runs C now e); [exact R|apply acts_fan]).
  destruct (IH (fan_out C now e s) R1 ltac:(intros X; apply NI; right; exact X)) as (A & B & D & T & F). cbv zeta in *. rewrite A, B.
  split; [apply fan_out_probes; [exact R|intros ->; apply NI; left; reflexivity]|]. split; [apply norel_fan|]. split; [exact D|].
  split; [eapply ticks_trans; [apply ticks_fan; exact Logic.I|exact T]|]. eapply fol_trans; [apply fol_fan, R|exact F].
Qed.
Lemma fails_other q now l : forall e, ~ In q l -> let e' := fold_left (fun e s => probe_fail C s now e) l e in
  aget q (e_probes e') = aget q (e_probes e) /\ ticks C any now e e' /\ follows C e e'.
Proof.
  induction l as [|s l IH]; intros e NI; cbv zeta; cbn [fold_left]; [split; [reflexivity|split; [apply ticks_refl|apply fol_refl]]|].
  destruct (IH (probe_fail C s now e) ltac:(intros X; apply NI; right; exact X)) as (A & T & F). cbv zeta in *. rewrite A.
  split; [rewrite probe_fail_probes; destruct (N.eqb_spec q s) as [->|]; [destruct NI; left; reflexivity|reflexivity]|].
  split; [eapply ticks_trans; [apply ticks_fail; exact Logic.I|exact T]|]. eapply fol_trans; [apply fol_fail|exact F].
Qed.
Lemma in_keys_filter {A} (f : N * A -> bool) (t : amap A) q p : NoDup (akeys t) -> aget q t = Some p -> (In q (map fst (filter f t)) <-> f (q, p) = true).
Proof.
  intros ND G. split.
  - intros H. apply in_map_iff in H as ([q' p'] & E & H). cbn [fst] in E. subst q'. apply filter_In in H as [H F]. apply (aget_of_in _ _ _ ND) in H. assert (p' = p) by congruence. subst. exact F.
  - intros F. apply in_map_iff. exists (q, p). split; [reflexivity|]. apply filter_In. split; [apply aget_in, G|exact F].
Qed.
Lemma blen_incl (l l' : list N) : NoDup l -> incl l l' -> blen l <= blen l'.
Proof. intros ND I. pose proof (NoDup_incl_length ND I). unfold blen. lia. Qed.
Lemma escalates now e q p d : einv C e -> runs e = true -> aget q (e_probes e) = Some p -> p_kind p = PKDetection -> p_phase p = PhDirect d ->
  tadd (p_sent p) (c_probe_timeout C) <= now -> now < p_fail p ->
  let e' := handle_timeout C now e in
  let addr := ns_addr (p_target p) in
  let ask := MIndirectPing q (lnode C) (mkNode (ns_id (p_target p)) addr) in
  exists peers l evs, e_tx e' = e_tx e ++ l /\ k_ev (e_core e') = k_ev (e_core e) ++ evs /\
    NoDup peers /\ (forall to, In to peers -> eligible e addr to /\ In (TPacket to ask) l) /\ blen peers <= c_indirect C /\
    (elen C ask <= c_mtu C -> forall others, NoDup others -> (forall to, In to others -> eligible e' addr to) -> N.min (c_indirect C) (blen others) <= blen peers) /\
    (c_mtu C < elen C ask -> peers = []) /\
    (~ In (ns_id (p_target p)) (e_norel e) -> exists r, In (EvDial r addr (p_fail p)) evs) /\
    (if match peers with [] => existsb (N.eqb (ns_id (p_target p))) (e_norel e) | _ => false end
     then forall p', aget q (e_probes e') = Some p' -> p_sent p' = now
     else exists p' r, aget q (e_probes e') = Some p' /\ snap p' = snap p /\ p_disp p' = true /\ p_phase p' = PhIndirect (blen peers) peers [] r (p_fail p)).
Proof.
  intros I R G PK PH L1 L2. cbv zeta. set (addr := ns_addr (p_target p)). set (ask := MIndirectPing q _ _).
  destruct (timeout_parts C now e I R) as (e4 & C4 & F02 & F24 & PB & [CA CM] & I1 & R1). cbv zeta in *.
  pose proof (ei_core _ _ I) as V.
  pose proof (ticks_expire C any now e) as TX. pose proof (ticks_rest C any now e R) as TR. cbv zeta in TR. pose proof (stands_rest q now e R) as SR.
  set (e1 := act C (KExpire now) e) in *. assert (e_probes e1 = e_probes e) as P1 by reflexivity. assert (e_norel e1 = e_norel e) as N1 by reflexivity.
  assert (follows C e e1) as F01 by (apply fol_act; exact Logic.I). clearbody e1. pose proof (ei_core _ _ I1) as V1.
  assert (fsm_due C now p = FsmFan) as FD.
  { unfold fsm_due. destruct (N.leb_spec (p_fail p) now); [lia|]. rewrite PH. unfold p_direct_deadline. destruct (N.leb_spec (tadd (p_sent p) (c_probe_timeout C)) now); [|lia]. rewrite PK. reflexivity. }
  rewrite <- P1 in G. set (e2 := advance_fsm C now e1) in *.
  assert (exists ef peers rid eg, aget q (e_probes ef) = Some p /\ e_norel ef = e_norel e1 /\ ticks C any now e1 ef /\ follows C e1 ef /\
    asked ef eg q p peers rid /\ e_probes eg = e_probes ef /\ kinv (e_core ef) /\ ticks C any now ef e2 /\
    (kinv (e_core eg) -> grows eg e2) /\ (forall to, In to peers -> True) /\ kinv (e_core eg) /\
    match peers, rid with [], None => aget q (e_probes e2) = None
    | _, _ => aget q (e_probes e2) = Some (p_set_phase (PhIndirect (blen peers) peers [] rid (p_fail p)) (p_set_disp true p)) end) as X.
  { unfold e2, advance_fsm. cbv zeta. set (ff := fun x : N * probe => match fsm_due C now (snd x) with FsmFan => true | _ => false end). set (lf := map fst (filter ff _)).
    set (gg := fun x : N * probe => match fsm_due C now (snd x) with FsmFail => true | _ => false end). set (lg := map fst (filter gg _)).
    assert (In q lf) as IQ by (apply (in_keys_filter ff _ q p (ei_pnd _ _ I1) G); unfold ff; cbn [snd]; rewrite FD; reflexivity).
    assert (~ In q lg) as NQ by (intros X; apply (in_keys_filter gg _ q p (ei_pnd _ _ I1) G) in X; unfold gg in X; cbn [snd] in X; rewrite FD in X; discriminate).
    assert (NoDup lf) as ND by (apply (nodup_filter ff), (ei_pnd _ _ I1)).
    clearbody lf lg. apply in_split in IQ as (a & b & ->). apply NoDup_remove in ND as [_ NI]. rewrite fold_left_app. cbn [fold_left].
    destruct (fans_other q now a e1 R1 ltac:(intros X; apply NI, in_or_app; auto)) as (A1 & A2 & A3 & A4 & A5). cbv zeta in *. set (ef := fold_left _ a e1) in *. rewrite G in A1.
    destruct (fan_exact now ef q p A3 A1 L2) as (eg & peers & rid & AS & PE & TG & EQ). exists ef, peers, rid, eg.
    assert (kinv (e_core ef)) as Vf by (apply (A5 V1)). set (eh := fan_out C now ef q) in *.
    assert (ticks C any now ef eh) as Th by (apply ticks_fan; exact Logic.I). assert (runs eh = true) as Rh by (rewrite (acts_runs C now ef); [exact A3|apply (ticks_acts C any), Th]).
    destruct (fans_other q now b eh Rh ltac:(intros X; apply NI, in_or_app; auto)) as (B1 & B2 & B3 & B4 & B5). cbv zeta in *. set (ei := fold_left _ b eh) in *.
    destruct (fails_other q now lg ei NQ) as (D1 & D2 & D3). cbv zeta in *. set (ej := fold_left _ lg ei) in *.
    assert (kinv (e_core eg)) as Vg by (apply (acts_kinv C now ef); [apply (ticks_acts C any), TG|exact Vf]).
    split; [exact A1|]. split; [exact A2|]. split; [exact A4|]. split; [exact A5|]. split; [exact AS|]. split; [exact PE|]. split; [exact Vf|].
    split; [eapply ticks_trans; [exact Th|]; eapply ticks_trans; eauto|].
    split; [|split; [auto|split; [exact Vg|]]].
    - intros _. assert (kinv (e_core eh)) as Vh by (apply (acts_kinv C now ef); [apply (ticks_acts C any), Th|exact Vf]).
      assert (grows eg eh) as G1 by (rewrite EQ; destruct peers as [|to peers], rid as [r|]; try (apply grows_same; reflexivity); apply (fol_fail C q now eg Vg)). destruct (B5 Vh) as (Vi & G2 & _). destruct (D3 Vi) as (_ & G3 & _). eapply grows_trans; [exact G1|]. eapply grows_trans; eauto.
    - rewrite D1, B1, EQ. destruct peers as [|to peers], rid as [r|]; try (cbn [e_probes e_set_probes]; apply aget_aset_eq).
      rewrite probe_fail_probes, N.eqb_refl. reflexivity. }
  destruct X as (ef & peers & rid & eg & Gf & Nf & Tf & Ff & AS & PE & Vf & T2 & GW & _ & Vg & RES). specialize (GW Vg).
  unfold asked in AS. fold addr in AS. fold ask in AS. destruct AS as (AP & AT & AR & AM). rewrite Nf, N1 in AR.
  destruct (F01 V) as (_ & G01 & _). destruct (Ff V1) as (_ & G1f & _). pose proof (grows_trans _ _ _ G01 G1f) as G0f.
  destruct (F02 V) as (V2 & _ & _). destruct (F24 V2) as (V4 & G24 & FP24). destruct (PB V4) as (V5 & G45 & PB45). destruct (CA V5) as (V6 & G56 & FP56).
  set (e' := handle_timeout C now e) in *.
  assert (grows eg e') as GE by (eapply grows_trans; [exact GW|]; eapply grows_trans; [exact G24|]; eapply grows_trans; eauto).
  destruct G0f as [(x1 & X1) (y1 & Y1)]. destruct GE as [(x2 & X2) (y2 & Y2)].
  assert (forall to, In to peers -> eligible e addr to) as EL.
  { intros to IT. apply (ticks_eligible now e e1); [exact V|exact TX|]. apply (ticks_eligible now e1 ef); [exact V1|exact Tf|]. apply helpers_eligible; [exact Vf|].
    destruct (_ <=? _); [apply AP, IT|subst peers; destruct IT]. }
  set (off := existsb (N.eqb (ns_id (p_target p))) (e_norel e)) in *.
  assert (exists dv, k_ev (e_core eg) = k_ev (e_core ef) ++ dv /\ (off = false -> In (EvDial (e_sid ef) addr (p_fail p)) dv)) as (dv & ED & ID).
  { destruct off; destruct AR as [_ ->]; [exists []; rewrite app_nil_r|eexists]; (split; [reflexivity|]); [discriminate|]. intros _. left. reflexivity. }
  exists peers, (x1 ++ map (fun to => TPacket to ask) peers ++ x2), (y1 ++ dv ++ y2).
  split; [rewrite X2, AT, X1, <- !app_assoc; reflexivity|]. split; [rewrite Y2, ED, Y1, <- !app_assoc; reflexivity|].
  split; [destruct (_ <=? _); [apply AP|subst peers; constructor]|].
  split; [intros to IT; split; [apply EL, IT|]; apply in_or_app; right; apply in_or_app; left; apply in_map_iff; exists to; auto|].
  split; [destruct (_ <=? _); [destruct AP as (_ & -> & _); lia|subst peers; cbn; lia]|].
  split.
  { intros FT others ND EO. destruct (N.leb_spec (elen C ask) (c_mtu C)); [|lia]. destruct AP as (_ & -> & _).
    assert (blen others <= blen (fan_helpers C addr ef)) as LE; [|lia]. apply blen_incl; [exact ND|]. intros to IT. apply helpers_eligible; [exact Vf|].
    apply (ticks_eligible now ef e2); [exact Vf|exact T2|]. apply (ticks_eligible now e2 e'); [exact V2|exact TR|]. apply EO, IT. }
  split; [intros NF; destruct (N.leb_spec (elen C ask) (c_mtu C)); [lia|exact AP]|].
  split.
  { intros NI. exists (e_sid ef). apply in_or_app. right. apply in_or_app. left. apply ID. unfold off. destruct (existsb _ _) eqn:EX; [|reflexivity].
    apply existsb_exists in EX as (z & Z1 & Z2). apply N.eqb_eq in Z2. subst z. contradiction. }
  assert (forall rid', aget q (e_probes e2) = Some (p_set_phase (PhIndirect (blen peers) peers [] rid' (p_fail p)) (p_set_disp true p)) ->
    exists p' r, aget q (e_probes e') = Some p' /\ snap p' = snap p /\ p_disp p' = true /\ p_phase p' = PhIndirect (blen peers) peers [] r (p_fail p)) as ST.
  { intros rid' G2. destruct (SR _ _ _ _ _ _ G2 eq_refl) as (p' & r & Q1 & Q2 & Q3 & Q4). exists p', r. auto. }
  destruct peers as [|to peers]; [|destruct rid; apply (ST _ RES)].
  destruct off; destruct AR as [-> _]; [|apply (ST _ RES)]. intros p' Gp. destruct (FP56 _ _ Gp) as (p5 & G5 & S5 & _).
  destruct (PB45 _ _ G5) as [(p4 & G4 & _)|(_ & SN & _)]; [destruct (FP24 _ _ G4) as (p2 & G2 & _); congruence|]. unfold snap in S5. congruence.
Qed.
End Escalate.
