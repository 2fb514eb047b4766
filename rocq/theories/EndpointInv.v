(** The invariant of the endpoint. *)
From Coq Require Import Permutation.
From Verif Require Import EndpointModel MapFacts BaseFacts DeadlineFacts CoreFacts CoreInv CoreSteps EndpointSteps.
Local Open Scope N_scope.

Section Inv.
Variable C : cfg.
Notation LID := (c_id C).
Notation estep := (estep C).
Notation esteps := (esteps C).
Notation eto := (eto C).

(** the shape of a live probe *)
Definition pshape (p : probe) : Prop :=
  match p_phase p with
  | PhDirect d => d = tadd (p_sent p) (c_probe_timeout C)
  | PhIndirect x ps nb rid d =>
    p_kind p = PKDetection /\ p_disp p = true /\ x = blen ps /\ NoDup ps /\ NoDup nb /\ incl nb ps /\ d = p_fail p
  end.
(** one pending ack per probe, ping and relay, and nothing else *)
Definition registered (e : ep) (s : N) : Prop :=
  match aget s (e_acks e) with
  | None => aget s (e_probes e) = None /\ aget s (e_fwds e) = None
  | Some a =>
    s <> 0 /\ s < two32 /\
    match a_kind a with
    | AKProbe => (exists p, aget s (e_probes e) = Some p /\ p_kind p = PKDetection) /\ aget s (e_fwds e) = None
    | AKPing => (exists p, aget s (e_probes e) = Some p /\ p_kind p = PKPing) /\ aget s (e_fwds e) = None
    | AKForward r => (exists f, aget s (e_fwds e) = Some f /\ f_reply f = r) /\ aget s (e_probes e) = None
    end
  end.
Record einv (e : ep) : Prop := mkEI {
  ei_core : kinv C (e_core e);
  ei_pnd : NoDup (akeys (e_probes e));
  ei_and : NoDup (akeys (e_acks e));
  ei_fnd : NoDup (akeys (e_fwds e));
  ei_ind : NoDup (akeys (e_int e));
  ei_iidx : dinv (e_iidx e);
  ei_lock : forall id, option_map fst (aget id (di_cur (e_iidx e))) = option_map in_deadline (aget id (e_int e));
  ei_sid : forall id i, aget id (e_int e) = Some i -> id < e_sid e;
  ei_rid : forall s p x ps nb r d, aget s (e_probes e) = Some p -> p_phase p = PhIndirect x ps nb (Some r) d -> r < e_sid e;
  ei_reg : forall s, registered e s;
  ei_shape : forall s p, aget s (e_probes e) = Some p -> pshape p;
  ei_cap : blen (e_fwds e) <= c_max_forwards C;
  ei_rest : runs e = false -> e_int e = [] /\ e_np e = None /\ e_ng e = None /\ e_npp e = None;
  ei_flush : match e_flush e with
             | Some n => runs e = false /\ n = blen (e_tx e) /\ 0 < n
             | None => runs e = false -> e_tx e = []
             end }.

Lemma einv_fwd_acks e : einv e -> fwd_acks e.
Proof.
  intros I s a r A K. pose proof (ei_reg _ I s) as R. unfold registered in R. rewrite A, K in R. apply R.
Qed.

(** ** What the two large steps do *)
Lemma farewell_rest d fw e : let e' := fst (farewell_payloads C d fw e) in
  e_core e' = e_core e /\ e_probes e' = e_probes e /\ e_acks e' = e_acks e /\ e_fwds e' = e_fwds e /\
  e_sid e' = e_sid e /\ e_int e' = e_int e /\ e_iidx e' = e_iidx e /\ e_np e' = e_np e /\ e_ng e' = e_ng e /\ e_npp e' = e_npp e /\
  e_tx e' = e_tx e /\ e_seq e' = e_seq e /\ e_payload e' = e_payload e.
Proof.
  cbv zeta. unfold farewell_payloads. destruct (match fw with Some _ => _ | None => _ end) as [b r].
  destruct r; [destruct (b =? 0); [repeat split|]|]; unfold drain_user; destruct (ub_take _ _ _ _ _) as [[? ?] ?]; repeat split.
Qed.
Definition leave_inc (e : ep) : N :=
  N.max (match aget LID (k_mem (e_core e)) with Some m => m_inc m | None => 0 end) (k_inc (e_core e)).
Definition left_ep (now : N) (e : ep) : ep :=
  act C (KLeave now) (e_set_iidx (di_clear (e_iidx e)) (e_set_int [] (e_set_np None (e_set_ng None (e_set_npp None e))))).
(** [leave_with] in one line: who is told, and what rides along *)
Lemma leave_eq now fw e : runs e = true ->
  let e1 := e_set_tx [] (left_ep now e) in
  let live := live_addrs C (act C (KLeave now) e) in
  let dead := MDead (leave_inc e) LID LID in
  let P := match live with [] => (e1, []) | _ => farewell_payloads C dead fw e1 end in
  let tx := map (fun to => match snd P with [] => TPacket to dead | _ => TCompound to (map MUserData (snd P) ++ [dead]) end) live in
  leave_with C now fw e =
    (match live with [] => fun e => e_set_flush None (act C (KEmit EvLeftCluster) e) | _ => e_set_flush (Some (blen live)) end)
      (e_set_tx tx (e_set_ub (ub_reset (e_ub (fst P))) (fst P))).
Proof.
  intros R. cbv zeta. unfold leave_with. rewrite R. cbn [negb]. cbv zeta.
  repeat match goal with |- context [act C (KLeave now) (e_set_iidx ?a ?b)] => change (act C (KLeave now) (e_set_iidx a b)) with (left_ep now e) end.
  change (live_addrs C (e_set_tx [] (left_ep now e))) with (live_addrs C (act C (KLeave now) e)). change (live_addrs C (left_ep now e)) with (live_addrs C (act C (KLeave now) e)).
  match goal with |- context [MDead ?i LID LID] => change i with (leave_inc e) end.
  destruct (live_addrs C (act C (KLeave now) e)) as [|a l]; [reflexivity|].
  set (D := farewell_payloads C _ fw _). pose proof (farewell_rest (MDead (leave_inc e) LID LID) fw (e_set_tx [] (left_ep now e))) as H.
  fold D in H. cbv zeta in H. destruct H as (_ & _ & _ & _ & _ & _ & _ & _ & _ & _ & T & _). destruct D as [e2 pl]. cbn [fst snd] in *.
  change (e_tx (e_set_ub (ub_reset (e_ub e2)) e2)) with (e_tx e2). rewrite T. reflexivity.
Qed.
Lemma leave_rest now fw e : runs e = true -> let e' := leave_with C now fw e in
  e_probes e' = e_probes e /\ e_acks e' = e_acks e /\ e_fwds e' = e_fwds e /\
  e_sid e' = e_sid e /\ e_int e' = [] /\ e_iidx e' = di_clear (e_iidx e) /\ e_np e' = None /\ e_ng e' = None /\ e_npp e' = None /\
  e_seq e' = e_seq e /\ e_payload e' = e_payload e /\
  blen (e_tx e') = blen (live_addrs C (act C (KLeave now) e)) /\
  e_flush e' = match live_addrs C (act C (KLeave now) e) with [] => None | l => Some (blen l) end.
Proof.
  intros R. cbv zeta. rewrite (leave_eq now fw e R). cbv zeta.
  set (live := live_addrs C (act C (KLeave now) e)). set (dead := MDead _ _ _).
  pose proof (farewell_rest dead fw (e_set_tx [] (left_ep now e))) as H. cbv zeta in H.
  destruct live as [|a l]; [repeat split|].
  destruct (farewell_payloads C dead fw _) as [e2 pl]. cbn [fst snd] in *.
  destruct H as (_ & P & A & F & S & I & X & N1 & N2 & N3 & _ & Q & PL).
  cbn [e_probes e_acks e_fwds e_sid e_int e_iidx e_np e_ng e_npp e_seq e_payload e_tx e_flush e_set_flush e_set_tx e_set_ub].
  rewrite P, A, F, S, I, X, N1, N2, N3, Q, PL. repeat (split; [reflexivity|]). split; [|reflexivity].
  unfold blen. rewrite map_length. reflexivity.
Qed.
Lemma leave_stops now k : kinv C k -> is_running (k_life (fst (core_step C k (KLeave now)))) = false.
Proof.
  intros K. unfold core_step. cbn [fst]. unfold core_leave. destruct (is_running (k_life k)) eqn:R; [|exact R].
  cbn [negb]. cbv zeta. rewrite dead_runs. reflexivity.
Qed.
Lemma leave_runs now fw e : einv e -> runs e = true -> runs (leave_with C now fw e) = false.
Proof.
  intros I R. unfold runs. rewrite (leave_with_core C now fw e R). unfold leave_ops.
  cbn [core_run]. pose proof (leave_stops now (e_core e) (ei_core _ I)) as L.
  destruct (core_step C (e_core e) (KLeave now)) as [k1 x]. cbn [fst] in L.
  destruct (live_addrs C _); cbn [core_run]; [|exact L].
  destruct (core_step C k1 (KEmit EvLeftCluster)) as [k2 y] eqn:E. cbn [fst]. 
  pose proof (core_runs C (KEmit EvLeftCluster) k1 Logic.I) as H. rewrite E in H. cbn [fst] in H. rewrite H. exact L.
Qed.
Lemma poll_rest e : let e' := fst (poll_transmit C e) in
  e_probes e' = e_probes e /\ e_acks e' = e_acks e /\ e_fwds e' = e_fwds e /\
  e_sid e' = e_sid e /\ e_int e' = e_int e /\ e_iidx e' = e_iidx e /\ e_np e' = e_np e /\ e_ng e' = e_ng e /\ e_npp e' = e_npp e /\
  e_seq e' = e_seq e /\ e_payload e' = e_payload e /\ e_tx e' = tl (e_tx e) /\
  e_flush e' = match e_tx e, e_flush e with _ :: _, Some r => if r <=? 1 then None else Some (r - 1) | _, f => f end /\
  runs e' = runs e.
Proof.
  cbv zeta. unfold poll_transmit. destruct (e_tx e) as [|t l] eqn:T; [repeat split; exact T|]. cbv zeta. cbn [fst tl].
  change (e_flush (e_set_tx l e)) with (e_flush e). destruct (e_flush e) as [r|] eqn:F; [|repeat split; exact F].
  destruct (r <=? 1); [|repeat split]. repeat split.
Qed.

(** ** Preservation *)
Lemma kinv_act o e : kinv C (e_core e) -> kinv C (e_core (act C o e)).
Proof. intros K. cbn. apply kinv_core_step, K. Qed.
Lemma pupd_kind p p' : pupd p p' -> p_kind p' = p_kind p /\ p_fail p' = p_fail p /\ p_target p' = p_target p /\
  p_inc p' = p_inc p /\ p_gen p' = p_gen p /\ p_sent p' = p_sent p.
Proof. destruct 1; repeat split. Qed.
Lemma pupd_shape p p' : pupd p p' -> pshape p -> pshape p'.
Proof.
  unfold pshape. destruct 1 as [b K (d & P)|d peers rid P K ND _|x ps nb r d from P I NI|x ps nb r d P].
  - cbn. rewrite P. auto.
  - cbn. rewrite P. intros _. repeat split; auto; try apply NoDup_nil. intros x [].
  - cbn. rewrite P. intros (A & B & D & E & F & G & H). repeat split; auto.
    + apply (Permutation_NoDup (l := from :: nb)); [apply Permutation_cons_append|constructor; auto].
    + intros y Y. apply in_app_iff in Y as [Y|[<-|[]]]; [apply G, Y|exact I].
  - cbn. rewrite P. auto.
Qed.
Lemma seq_used_false e s : seq_used e s = false -> aget s (e_probes e) = None /\ aget s (e_fwds e) = None /\ aget s (e_acks e) = None.
Proof.
  unfold seq_used, ack_contains. rewrite !orb_false_iff. intros [[A B] D].
  apply ahas_false in A, B, D. auto.
Qed.
Lemma di_clear_cur D id : aget id (di_cur (di_clear D)) = None.
Proof. reflexivity. Qed.
Lemma blen_aset_new {A} k (a : A) m : aget k m = None -> blen (aset k a m) = blen m + 1.
Proof. intros H. unfold aset. rewrite (adel_none k m H). unfold blen. cbn [length]. lia. Qed.
Lemma runs_false_int e : einv e -> forall i id, aget id (e_int e) = Some i -> runs e = true.
Proof. intros I i id G. destruct (runs e) eqn:R; [reflexivity|]. destruct (ei_rest _ I R) as [E _]. rewrite E in G. discriminate. Qed.
Lemma flush_running e : einv e -> runs e = true -> e_flush e = None.
Proof. intros I R. pose proof (ei_flush _ I) as F. destruct (e_flush e); [destruct F; congruence|reflexivity]. Qed.

Ltac fields := cbn [e_core e_probes e_acks e_fwds e_seq e_pidx e_psr e_tx e_flush e_sid e_int e_iidx e_payload e_snap e_cache e_cver e_cdirty e_norel e_ub e_merge e_np e_ng e_npp
  e_set_core e_set_probes e_set_acks e_set_fwds e_set_seq e_set_pidx e_set_psr e_set_tx e_set_flush e_set_sid e_set_int e_set_iidx e_set_payload e_set_snap e_set_cache e_set_cver e_set_cdirty e_set_norel e_set_ub e_set_merge e_set_np e_set_ng e_set_npp push insert_intent remove_intent act].
Lemma einv_act e o : einv e -> not_leaving o -> einv (act C o e).
Proof.
  intros I H. pose proof (kinv_act o e (ei_core _ I)) as K. assert (runs (act C o e) = runs e) as R by (apply runs_nl, H). destruct I.
  constructor; rewrite ?R; fields; auto.
Qed.
Lemma einv_del e s p : einv e -> aget s (e_probes e) = Some p -> einv (e_set_acks (adel s (e_acks e)) (e_set_probes (adel s (e_probes e)) e)).
Proof.
  intros I H. destruct I; constructor; fields; auto; try (apply nodup_adel; assumption).
  + intros j q x ps nb r d'. rewrite aget_adel. destruct (N.eqb_spec j s); [discriminate|eauto].
  + intros j. specialize (ei_reg0 j). unfold registered in *. fields. rewrite !aget_adel. destruct (N.eqb_spec j s) as [->|]; [|exact ei_reg0].
      rewrite H in ei_reg0. destruct (aget s (e_acks e)) as [a|]; [|destruct ei_reg0; discriminate].
      destruct ei_reg0 as (X & Y & Z). split; [reflexivity|]. destruct (a_kind a); [apply Z|destruct Z; discriminate|apply Z].
  + intros j q. rewrite aget_adel. destruct (N.eqb_spec j s); [discriminate|eauto].
Qed.
Lemma einv_unint e id : einv e -> einv (remove_intent id e).
Proof.
  intros I. destruct I; constructor; fields; auto; try (apply nodup_adel; assumption).
    + apply dinv_set. assumption.
    + intros j. rewrite set_cur by assumption. rewrite aget_adel. destruct (N.eqb_spec j id); [reflexivity|apply ei_lock0].
    + intros j i. rewrite aget_adel. destruct (N.eqb_spec j id); [discriminate|apply ei_sid0].
    + intros X. destruct (ei_rest0 X) as (-> & R). split; [reflexivity|exact R].
Qed.
Lemma einv_step e ks cr e' : einv e -> estep e ks cr e' -> einv e'.
Proof.
  intros I S. assert (kinv C (e_core e')) as K by (rewrite (estep_core C _ _ _ _ S); apply kinv_run, (ei_core _ I)).
  destruct S.
  - (* core *) apply einv_act; assumption.
  - (* fail *) unfold probe_fail. rewrite H. change (fst (ack_remove s (e_acks e))) with (adel s (e_acks e)).
    set (e1 := e_set_acks _ _). assert (einv e1) as I1 by exact (einv_del _ _ _ I H).
    set (e2 := match p_phase p with PhIndirect _ _ _ (Some rid) _ => remove_intent rid e1 | _ => e1 end).
    assert (einv e2) as I2 by (unfold e2; destruct (p_phase p) as [|? ? ? [?|] ?]; try exact I1; apply einv_unint, I1).
    clearbody e2. destruct (p_kind p); [|apply einv_act; [exact I2|exact Logic.I]]. destruct (negb _); [exact I2|].
    destruct (same_instance _ _); repeat (apply einv_act; [|exact Logic.I]); exact I2.
  - (* misc *) destruct H as (E1 & E2 & E3 & E4 & E5 & E6 & E7 & E8 & E9 & E10 & E11 & E12 & E13).
    assert (runs e' = runs e) as R by (unfold runs; rewrite E1; reflexivity). destruct I.
    constructor; unfold registered; rewrite ?R, ?E2, ?E3, ?E4, ?E6, ?E7, ?E8, ?E9, ?E10, ?E11, ?E12, ?E13; auto.
  - (* payload *) destruct I; constructor; fields; auto.
  - (* user *) destruct I; constructor; fields; auto.
  - (* push *) pose proof (flush_running _ I H) as F. destruct I; constructor; fields; auto. rewrite F.
    change (runs (push t e)) with (runs e). congruence.
  - (* answer *) pose proof (flush_running _ I H) as F. destruct I; constructor; fields; auto. rewrite F.
    change (runs (push (TPacket a m) e)) with (runs e). congruence.
  - (* gossip *) pose proof (flush_running _ I H) as F. pose proof (gossip_batch_core C e) as GC.
    assert (let g := fst (gossip_batch C e) in e_probes g = e_probes e /\ e_acks g = e_acks e /\ e_fwds g = e_fwds e /\ e_sid g = e_sid e /\
      e_int g = e_int e /\ e_iidx g = e_iidx e /\ e_np g = e_np e /\ e_ng g = e_ng e /\ e_npp g = e_npp e /\ e_flush g = e_flush e) as G.
    { cbv zeta. unfold gossip_batch. destruct (peek_first_sendable _ _); [destruct (_ <? _); [repeat split|]|];
      destruct (take_broadcasts_measured _ _ _ _ _) as [[Q got] used]; unfold drain_user; destruct (ub_take _ _ _ _ _) as [[? ?] ?]; repeat split. }
    destruct (gossip_batch C e) as [g ms]. cbn [fst] in *. cbv zeta in G. destruct G as (E1 & E2 & E3 & E4 & E5 & E6 & E7 & E8 & E9 & E10).
    assert (runs g = true) as R by (unfold runs; rewrite GC; fold (runs (act C (gossip_op C e) e)); rewrite (runs_act C _ _ (gossip_op_ordinary C e)); exact H).
    destruct I. constructor; unfold registered; fields; rewrite ?E1, ?E2, ?E3, ?E4, ?E5, ?E6, ?E7, ?E8, ?E9, ?E10; auto.
    + intros X. change (runs (e_set_tx (e_tx g ++ flat_map (gossip_tx ms) targets) g)) with (runs g) in X. congruence.
    + rewrite F. intros X. change (runs (e_set_tx (e_tx g ++ flat_map (gossip_tx ms) targets) g)) with (runs g) in X. congruence.
  - (* seq *) destruct I; constructor; fields; auto.
  - (* probe new *) apply seq_used_false in H2 as (U1 & U2 & U3).
    assert (pshape p /\ (a_kind a = AKProbe /\ p_kind p = PKDetection \/ a_kind a = AKPing /\ p_kind p = PKPing) /\ exists d, p_phase p = PhDirect d) as (SH & KD & d & PH).
    { unfold born in H3. destruct (p_kind p).
      - destruct H3 as (A & m & _ & _ & ->). split; [reflexivity|]. split; [left; auto|]. eexists. reflexivity.
      - destruct H3 as (A & t & i & g & ->). split; [reflexivity|]. split; [right; auto|]. eexists. reflexivity. }
    destruct I; constructor; fields; auto; try (apply nodup_aset; assumption).
    + intros j q x ps nb r d'. rewrite aget_aset. destruct (N.eqb_spec j s); [intros [= <-]; congruence|eauto].
    + intros j. unfold registered. fields. rewrite !aget_aset. destruct (N.eqb_spec j s) as [->|]; [|apply ei_reg0].
      split; [assumption|]. split; [assumption|]. rewrite U2. destruct KD as [[-> KP]|[-> KP]]; eauto.
    + intros j q. rewrite aget_aset. destruct (N.eqb_spec j s); [intros [= <-]; exact SH|eauto].
  - (* probe upd *) destruct I; constructor; fields; auto; try (apply nodup_aset; assumption).
    + intros j q x ps nb r d'. rewrite aget_aset. destruct (N.eqb_spec j s); [|eauto]. intros [= <-] P.
      destruct (H1 _ _ _ _ _ P) as [L|(x' & ps' & nb' & d'' & P')]; [exact L|]. eauto.
    + intros j. specialize (ei_reg0 j). unfold registered in *. fields. rewrite aget_aset. destruct (N.eqb_spec j s) as [->|]; [|exact ei_reg0].
      rewrite H in ei_reg0. destruct (pupd_kind _ _ H0) as [KD _].
      destruct (aget s (e_acks e)) as [a|]; [|destruct ei_reg0; discriminate]. destruct ei_reg0 as (X & Y & Z). split; [exact X|]. split; [exact Y|].
      destruct (a_kind a); [destruct Z as ((p0 & [= <-] & Z) & ?)|destruct Z; discriminate|destruct Z as ((p0 & [= <-] & Z) & ?)]; rewrite <- KD in Z; eauto.
    + intros j q. rewrite aget_aset. destruct (N.eqb_spec j s); [intros [= <-]|eauto]. eapply pupd_shape; eauto.
  - (* probe del *) eapply einv_del; eassumption.
  - (* forward new *) apply seq_used_false in H2 as (U1 & U2 & U3).
    destruct I; constructor; fields; auto; try (apply nodup_aset; assumption).
    + intros j. unfold registered. fields. rewrite !aget_aset. destruct (N.eqb_spec j s) as [->|]; [|apply ei_reg0].
      split; [assumption|]. split; [assumption|]. cbn. split; [eexists; split; reflexivity|exact U1].
    + rewrite (blen_aset_new _ _ _ U2). lia.
  - (* forward done *) pose proof (flush_running _ I H) as F. destruct I; constructor; fields; auto; try (apply nodup_adel; assumption).
    + intros j. specialize (ei_reg0 j). unfold registered in *. fields. rewrite !aget_adel. destruct (N.eqb_spec j s) as [->|]; [|exact ei_reg0].
      rewrite H0 in ei_reg0. destruct (aget s (e_acks e)) as [a|]; [|destruct ei_reg0; discriminate].
      destruct ei_reg0 as (X & Y & Z). split; [|reflexivity]. destruct (a_kind a); [destruct Z; discriminate|apply Z|destruct Z; discriminate].
    + pose proof (blen_adel s (e_fwds e)). lia.
    + rewrite F. intros X. exfalso. change (runs e = false) in X. congruence.
  - (* sid *) destruct I; constructor; fields; auto.
    + intros id i G. apply ei_sid0 in G. lia.
    + intros s p x ps nb r d G P. specialize (ei_rid0 _ _ _ _ _ _ _ G P). lia.
  - (* open *) destruct I; constructor; fields; auto; try (apply nodup_aset; assumption).
    + apply dinv_set. assumption.
    + intros id. rewrite set_cur by assumption. rewrite aget_aset. destruct (N.eqb_spec id (e_sid e)); [reflexivity|apply ei_lock0].
    + intros id j. rewrite aget_aset. destruct (N.eqb_spec id (e_sid e)); [lia|]. intros G. apply ei_sid0 in G. lia.
    + intros s p x ps nb r d G P. specialize (ei_rid0 _ _ _ _ _ _ _ G P). lia.
    + intros X. exfalso. change (runs e = false) in X. congruence.
  - (* intent del *) apply einv_unint, I.
  - (* sched *) pose proof (flush_running _ I H) as F. destruct I; constructor; fields; auto.
    intros X. exfalso. change (runs e = false) in X. congruence.
  - (* reorder *)
    pose proof (shuffle_perm f (e_probes e)) as P1. pose proof (shuffle_perm f (e_fwds e)) as P2. pose proof (shuffle_perm f (e_int e)) as P3.
    destruct I.
    assert (forall j, aget j (shuffle f (e_probes e)) = aget j (e_probes e)) as G1 by (intros j; first [apply perm_aget; assumption | symmetry; apply perm_aget; assumption | apply perm_aget; [assumption|apply Permutation_sym; assumption]]).
    assert (forall j, aget j (shuffle f (e_fwds e)) = aget j (e_fwds e)) as G2 by (intros j; first [apply perm_aget; assumption | symmetry; apply perm_aget; assumption | apply perm_aget; [assumption|apply Permutation_sym; assumption]]).
    assert (forall j, aget j (shuffle f (e_int e)) = aget j (e_int e)) as G3 by (intros j; first [apply perm_aget; assumption | symmetry; apply perm_aget; assumption | apply perm_aget; [assumption|apply Permutation_sym; assumption]]).
    constructor; unfold registered; fields; auto.
    + eapply perm_nodup_keys; eauto.
    + eapply perm_nodup_keys; eauto.
    + eapply perm_nodup_keys; eauto.
    + intros id. rewrite G3. apply ei_lock0.
    + intros id i. rewrite G3. apply ei_sid0.
    + intros s p x ps nb r d. rewrite G1. apply ei_rid0.
    + intros s. rewrite G1, G2. apply ei_reg0.
    + intros s p. rewrite G1. apply ei_shape0.
    + rewrite blen_shuffle. exact ei_cap0.
    + intros X. destruct (ei_rest0 X) as (E & R). split; [|exact R]. rewrite E in P3. apply Permutation_nil. rewrite E. exact P3.
  - (* leave *) pose proof (leave_runs now fw e I H) as R. pose proof (leave_rest now fw e H) as X. cbv zeta in X.
    destruct X as (E1 & E2 & E3 & E4 & E5 & E6 & E7 & E8 & E9 & E10 & E11 & E12 & E13).
    destruct I; constructor; unfold registered; rewrite ?E1, ?E2, ?E3, ?E4, ?E5, ?E6, ?E7, ?E8, ?E9; auto.
    + constructor.
    + apply dinv_clear.
    + discriminate.
    + rewrite E13, E12. destruct (live_addrs C _) as [|a l]; [|split; [exact R|split; [reflexivity|unfold blen; cbn [length]; lia]]].
      intros _. apply length_zero_iff_nil. unfold blen in E12. cbn [length] in E12. lia.
  - (* poll *) pose proof (poll_rest e) as X. cbv zeta in X.
    destruct X as (E1 & E2 & E3 & E4 & E5 & E6 & E7 & E8 & E9 & E10 & E11 & E12 & E13 & R).
    destruct I; constructor; unfold registered; rewrite ?E1, ?E2, ?E3, ?E4, ?E5, ?E6, ?E7, ?E8, ?E9, ?R; auto.
    rewrite E13, E12. destruct (e_tx e) as [|t l]; [cbn [tl]; destruct (e_flush e); [destruct ei_flush0 as (?&?&?)|]; auto|].
    cbn [tl]. destruct (e_flush e) as [n|].
    + destruct ei_flush0 as (X & -> & L). unfold blen in *. cbn [length] in *. destruct (N.leb_spec (N.of_nat (S (length l))) 1).
      * intros _. apply length_zero_iff_nil. lia.
      * split; [exact X|]. split; lia.
    + intros X. specialize (ei_flush0 X). discriminate.
Qed.
Lemma einv_steps e ks cr e' : esteps e ks cr e' -> einv e -> einv e'.
Proof. induction 1 as [|? ? ? ? ? ? ? S _ IH]; [auto|]. intros I. apply IH. eapply einv_step; eauto. Qed.
Lemma Some_inj {A} (a b : A) : Some a = Some b -> a = b.
Proof. congruence. Qed.
Lemma einv_new now e : ep_new C now = Some e -> einv e.
Proof.
  unfold ep_new. destruct (cfg_ok C); [|discriminate]. intros H. apply Some_inj in H as <-.
  match goal with |- einv (refresh_cache ?x) => destruct (refresh_to C x) as (ks & S & _) end. eapply einv_steps; [exact S|]. clear.
  constructor; fields; try (constructor; fail); try (intros; discriminate); try reflexivity.
  all: try apply kinv_new; try apply dinv_new; try (unfold blen; cbn; lia).
  intros s. unfold registered. cbn. auto.
Qed.

(** ** Every operation, as a chain *)
Lemma einv_shape e : einv e -> direct_shape C e.
Proof. intros I s p d G P. pose proof (ei_shape _ I _ _ G) as S. unfold pshape in S. rewrite P in S. exact S. Qed.
Lemma step_chain e o : einv e -> exists ls cr, esteps e ls cr (fst (ep_step C e o)) /\
  (cr = [] \/ exists c, cr = [c] /\ credit o = [c]) /\ Forall (lab_of o) ls.
Proof.
  intros I. pose proof (op_to C e o (ei_core _ I) (ei_pnd _ I) (einv_fwd_acks _ I) (einv_shape _ I)) as S.
  assert (dto C o e (fst (ep_step C e o)) -> exists ls cr, esteps e ls cr (fst (ep_step C e o)) /\
    (cr = [] \/ exists c, cr = [c] /\ credit o = [c]) /\ Forall (lab_of o) ls) as D.
  { intros (ks & T & O). exists ks, []. auto. }
  destruct (credit o) as [|c [|? ?]] eqn:Q; [apply D, S| |apply D, S]. destruct S as [S|(e1 & e2 & (k1 & S1 & O1) & S2 & (k2 & S3 & O2))].
  - apply D, dto_eto, S.
  - exists (k1 ++ ([] ++ k2)), ([] ++ ([c] ++ [])). split.
    + eapply esteps_trans; [exact S1|]. eapply esteps_trans; [apply esteps_one, S2|exact S3].
    + cbn [app]. split; [right; exists c; auto|]. apply Forall_app. split; (eapply Forall_impl; [|eassumption]); intros l L; left; exact L.
Qed.
Lemma einv_op e o : einv e -> einv (fst (ep_step C e o)).
Proof. intros I. destruct (step_chain e o I) as (ks & cr & S & _). eapply einv_steps; eauto. Qed.
Lemma ep_run_fst e os : fst (ep_run C e os) = fold_left (fun e o => fst (ep_step C e o)) os e.
Proof.
  revert e. induction os as [|o os IH]; intros e; [reflexivity|]. cbn [ep_run fold_left]. rewrite <- IH.
  destruct (ep_step C e o) as [e1 x]. cbn [fst]. destruct (ep_run C e1 os); reflexivity.
Qed.
Lemma einv_run os : forall e, einv e -> einv (fst (ep_run C e os)).
Proof. intros e I. rewrite ep_run_fst. revert e I. induction os as [|o os IH]; intros e I; [exact I|]. apply IH, einv_op, I. Qed.
Definition reach (e : ep) : Prop := exists t0 e0 os, ep_new C t0 = Some e0 /\ e = fst (ep_run C e0 os).
Lemma reach_inv e : reach e -> einv e.
Proof. intros (t0 & e0 & os & N & ->). apply einv_run. eapply einv_new, N. Qed.
End Inv.
