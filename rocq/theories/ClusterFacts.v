(** Who is the source of what is said about a node: one operation of one
    endpoint, then the cluster. *)
From Coq Require Import Permutation.
From Verif Require Import CodecModel EndpointModel MapFacts BaseFacts DeadlineFacts BroadcastFacts BroadcastInv BroadcastHist
  CoreFacts CoreInv CoreSteps CoreTrans EndpointSteps EndpointInv EndpointFacts EndpointRuns ClusterModel ClusterSpec.
Local Open Scope N_scope.

(** ** One endpoint, one operation *)
Section Op.
Variable C : cfg.
Notation LID := (c_id C).
(** the claims made before the operation, the local incarnation before it *)
Variable A : alive -> Prop.
Variable B : N.
Implicit Types (k : core).
Definition own k (al : alive) : Prop := exists m, rec_at k LID = Some m /\ al = alive_of (k_inc k) (m_server m).
Definition auth k al : Prop := A al \/ own k al.
Definition puba (id inc : N) : Prop := exists al, A al /\ al_id al = id /\ al_inc al = inc.
Definition pub k (id inc : N) : Prop := exists al, auth k al /\ al_id al = id /\ al_inc al = inc.
Definition mok k (m : msg) : Prop :=
  (forall id inc, names m id inc -> pub k id inc) /\ (forall al, describes m al -> auth k al).
Definition grows k k' : Prop := forall al, auth k al -> auth k' al.
Definition queue k := map i_b (bq_q (k_bc k)).
Definition rok id m : Prop := puba id (m_inc m) /\ (m_state m = PAlive -> A (alive_of (m_inc m) (m_server m))).
Record cok k : Prop := mkCok {
  co_own : exists m, rec_at k LID = Some m /\ ((k_inc k = B /\ A (alive_of B (m_server m))) \/ k_inc k = B + 1);
  co_rec : forall id m, rec_at k id = Some m -> id <> LID -> rok id m;
  co_bc : forall b, In b (queue k) -> mok k (snd b) }.

Lemma pub_mono k k' id inc : grows k k' -> pub k id inc -> pub k' id inc.
Proof. intros G (al & H & E). exists al. split; [apply G, H|exact E]. Qed.
Lemma mok_mono k k' m : grows k k' -> mok k m -> mok k' m.
Proof. intros G [H1 H2]. split; [intros id inc N; eapply pub_mono; eauto|intros al N; apply G, H2, N]. Qed.
Lemma grows_refl k : grows k k.
Proof. intros al H. exact H. Qed.
Lemma grows_trans k1 k2 k3 : grows k1 k2 -> grows k2 k3 -> grows k1 k3.
Proof. intros H1 H2 al H. auto. Qed.
Lemma puba_pub k id inc : puba id inc -> pub k id inc.
Proof. intros (al & H & E). exists al. split; [left; exact H|exact E]. Qed.

Variable HE : enc_ok C.
Variable HA : forall al, A al -> al_id al = LID -> al_inc al <= B.
Variable HB : B < u32_max.

Lemma cok_mid k k' : cok k ->
  (forall id m, rec_at k' id = Some m -> id <> LID -> rok id m) ->
  (exists m m', rec_at k LID = Some m /\ rec_at k' LID = Some m' /\ m_server m' = m_server m) -> k_inc k' = k_inc k ->
  (forall b, In b (queue k') -> In b (queue k) \/ mok k (snd b)) ->
  cok k' /\ grows k k'.
Proof.
  intros [(m0 & G0 & O) R Q] H1 (m & m' & G & G' & ES) EI H3.
  assert (m0 = m) by congruence. subst m0.
  assert (grows k k') as GR.
  { intros al [X|(x & X & ->)]; [left; exact X|right]. exists m'. split; [exact G'|]. assert (x = m) by congruence. subst x. rewrite EI, ES. reflexivity. }
  split; [|exact GR]. constructor; [|exact H1|].
  - exists m'. split; [exact G'|]. rewrite EI, ES. exact O.
  - intros b I. apply (mok_mono k); [exact GR|]. destruct (H3 b I) as [X|X]; [apply Q, X|exact X].
Qed.
Lemma cok_bump k k' m' : cok k -> k_inc k = B -> k_inc k' = B + 1 -> rec_at k' LID = Some m' ->
  (forall id m, rec_at k' id = Some m -> id <> LID -> rok id m) ->
  (forall b, In b (queue k') -> In b (queue k) \/ mok k' (snd b)) ->
  cok k' /\ grows k k'.
Proof.
  intros [(m0 & G0 & O) R Q] EB EB' G' H1 H3.
  assert (grows k k') as GR.
  { intros al [X|(x & X & ->)]; left; [exact X|]. assert (x = m0) by congruence. subst x. destruct O as [[_ O]|O]; [rewrite EB; exact O|lia]. }
  split; [|exact GR]. constructor; [|exact H1|].
  - exists m'. split; [exact G'|]. right. exact EB'.
  - intros b I. destruct (H3 b I) as [X|X]; [apply (mok_mono k); [exact GR|apply Q, X]|exact X].
Qed.
Lemma queue_bcast id x k k0 b : gq C k -> k_bc k0 = k_bc k -> In b (queue (bcast C id x k0)) -> In b (queue k) \/ b = (id, x).
Proof.
  intros [W _] E H. unfold queue in *. change (k_bc (bcast C id x k0)) with (fst (bq_step (mbcast C) (k_bc k0) (OQueue (id, x)))) in H. rewrite E in H.
  apply (step_from_queue (mbcast C) (k_bc k) (OQueue (id, x)) W) in H as [H|H]; [left; exact H|right]. injection H as <-. reflexivity.
Qed.

(** what an operation may be told *)
Definition gin (g : gossip) : Prop :=
  match g with GAlive al => A al | GSuspect inc id _ | GDead inc id _ => puba id inc end.
Definition opin (o : cop) : Prop := (forall now g, origin C o now g -> gin g) /\ match o with KMeta _ => False | _ => True end.

Lemma mok_alive k al : auth k al -> mok k (MAlive al).
Proof. intros H. split; [intros id inc [E1 E2]; exists al; auto|intros x <-; exact H]. Qed.
Lemma mok_suspect k inc id from : pub k id inc -> mok k (MSuspect inc id from).
Proof. intros H. split; [intros i n [<- <-]; exact H|intros x []]. Qed.
Lemma mok_dead k inc id from : pub k id inc -> mok k (MDead inc id from).
Proof. intros H. split; [intros i n [<- <-]; exact H|intros x []]. Qed.
Lemma mok_quiet k m : match m with MAlive _ | MSuspect _ _ _ | MDead _ _ _ | MPushPull _ _ _ => False | _ => True end -> mok k m.
Proof. intros H. split; [intros i n N|intros x N]; destruct m; contradiction. Qed.
Lemma own_pub k m : kinv C k -> rec_at k LID = Some m -> pub k LID (k_inc k).
Proof.
  intros V G. exists (alive_of (k_inc k) (m_server m)). split; [right; exists m; auto|]. split; [|reflexivity]. cbn.
  apply (ki_rec _ _ V _ _ G).
Qed.
Lemma rec_upd k id f j : rec_at (upd id f k) j = if j =? id then option_map f (rec_at k j) else rec_at k j.
Proof. unfold rec_at, upd. cbn. rewrite aget_mt_upd. reflexivity. Qed.

(** every record after an update of one other than the local *)
Lemma cok_upd k k' id f m : cok k -> rec_at k id = Some m -> id <> LID ->
  (forall j, rec_at k' j = if j =? id then option_map f (rec_at k j) else rec_at k j) -> rok id (f m) ->
  k_inc k' = k_inc k -> (forall b, In b (queue k') -> In b (queue k) \/ mok k (snd b)) -> cok k' /\ grows k k'.
Proof.
  intros K G NL RE RO EI Q. destruct (co_own _ K) as (ml & GL & _). apply (cok_mid k k' K).
  - intros j x X NJ. rewrite RE in X. destruct (N.eqb_spec j id) as [->|]; [|exact (co_rec _ K _ _ X NJ)].
    rewrite G in X. injection X as <-. exact RO.
  - exists ml, ml. split; [exact GL|]. split; [|reflexivity]. rewrite RE. destruct (N.eqb_spec LID id); [congruence|exact GL].
  - exact EI.
  - exact Q.
Qed.
Lemma alive_of_ns al s : alive_of (al_inc al) (alive_ns al s) = al.
Proof. destruct al. reflexivity. Qed.
Lemma cok_same k k' : cok k -> (forall j, rec_at k' j = rec_at k j) -> k_inc k' = k_inc k -> incl (queue k') (queue k) -> cok k' /\ grows k k'.
Proof.
  intros K RE EI Q. destruct (co_own _ K) as (ml & GL & _). apply (cok_mid k k' K); [|exists ml, ml; rewrite RE; auto|exact EI|auto].
  intros j x X NJ. rewrite RE in X. exact (co_rec _ K _ _ X NJ).
Qed.

Lemma cok_step o now k k' : kinv C k -> gq C k -> cok k -> opin o -> kstep C o now k k' -> cok k' /\ grows k k'.
Proof.
  intros V W K [OI NM] S. destruct S.
  - (* refute *)
    rename H into Go, H0 into AC, H2 into GL, H3 into LE, H4 into AL.
    assert (accused <= B) as AB.
    { specialize (OI _ _ Go). destruct g as [al|i id f|i id f]; cbn in OI, AC.
      - destruct AC as (E1 & _ & <-). apply HA; assumption.
      - destruct AC as [-> ->]. destruct OI as (al & X & E1 & <-). apply HA; assumption.
      - destruct AC as [-> ->]. destruct OI as (al & X & E1 & <-). apply HA; assumption. }
    destruct (co_own _ K) as (m0 & G0 & O). assert (m0 = m) by congruence. subst m0.
    destruct (ki_local _ _ V) as (m1 & G1 & (MI & _)). assert (m1 = m) by congruence. subst m1.
    assert (k_inc k = B) as EB by (destruct O as [[O _]|O]; lia).
    assert (refuted_inc accused (k_inc k) = B + 1) as RI.
    { unfold refuted_inc. rewrite EB. unfold wadd32. rewrite N.mod_small by (unfold u32_max in HB; unfold two32; lia).
      destruct (N.leb_spec (B + 1) accused); [lia|reflexivity]. }
    cbv zeta. rewrite RI.
    assert (rec_at (bcast C LID (MAlive (alive_of (B + 1) (m_server m))) (upd LID (m_set_inc (B + 1)) (k_set_inc (B + 1) (health_fail 1 k)))) LID = Some (m_set_inc (B + 1) m)) as GN.
    { change (rec_at (upd LID (m_set_inc (B + 1)) (k_set_inc (B + 1) (health_fail 1 k))) LID = Some (m_set_inc (B + 1) m)). rewrite rec_upd, N.eqb_refl.
      change (rec_at (k_set_inc (B + 1) (health_fail 1 k)) LID) with (rec_at k LID). rewrite GL. reflexivity. }
    eapply (cok_bump k _ (m_set_inc (B + 1) m)); [exact K|exact EB|reflexivity|exact GN| |].
    + intros id x X NI. change (rec_at (upd LID (m_set_inc (B + 1)) (k_set_inc (B + 1) (health_fail 1 k))) id = Some x) in X. rewrite rec_upd in X.
      destruct (N.eqb_spec id LID); [contradiction|]. exact (co_rec _ K _ _ X NI).
    + intros b I. apply (queue_bcast _ _ k) in I; [|exact W|reflexivity]. destruct I as [I| ->]; [left; exact I|right].
      apply mok_alive. right. exists (m_set_inc (B + 1) m). split; [exact GN|reflexivity].
  - (* confirm *)
    rename H into Go, H1 into G. assert (id <> LID) as NL.
    { intros ->. destruct (local_rec C k V) as (ml & GL & _ & _ & SN & _). congruence. }
    eapply (cok_upd k _ id (m_set_susp (Some s')) m); [exact K|exact G|exact NL| |exact (co_rec _ K _ _ G NL)|reflexivity|].
    + intros j. exact (rec_upd k id _ j).
    + intros b I. apply (queue_bcast _ _ k) in I; [|exact W|reflexivity]. destruct I as [I| ->]; [left; exact I|right]. apply mok_suspect, puba_pub. exact (OI _ _ Go).
  - (* suspect *)
    rename H into Go, H1 into G, H4 into NL. cbv zeta. eapply (cok_upd k _ id _ m); [exact K|exact G|exact NL| | |reflexivity|].
    + intros j. exact (rec_upd k id _ j).
    + split; [exact (OI _ _ Go)|discriminate].
    + intros b I. apply (queue_bcast _ _ k) in I; [|exact W|reflexivity]. destruct I as [I| ->]; [left; exact I|right]. apply mok_suspect, puba_pub. exact (OI _ _ Go).
  - (* dead *)
    rename H into Go, H1 into G, H4 into NL. eapply (cok_upd k _ id _ m); [exact K|exact G|exact NL| | |reflexivity|].
    + intros j. exact (rec_upd k id _ j).
    + split; [exact (OI _ _ Go)|]. cbn. destruct (id =? from); discriminate.
    + intros b I. apply (queue_bcast _ _ k) in I; [|exact W|reflexivity]. destruct I as [I| ->]; [left; exact I|right]. apply mok_dead, puba_pub. exact (OI _ _ Go).
  - apply cok_same; [exact K|reflexivity|reflexivity|apply incl_refl].
  - (* join *)
    rename H into Go, H2 into GN. destruct (co_own _ K) as (ml & GL & _).
    assert (forall off dr j, rec_at (k_set_mem (mt_insert off (al_id al) (mkM (alive_ns al PAlive) (al_inc al) now PAlive None (k_gen k)) (k_mem k)) (k_set_draws dr (next_gen k))) j =
      if j =? al_id al then Some (mkM (alive_ns al PAlive) (al_inc al) now PAlive None (k_gen k)) else rec_at k j) as RE.
    { intros off0 dr j. unfold rec_at. cbn. apply aget_mt_insert; [exact (ki_nodup _ _ V)|exact GN]. }
    eapply (cok_mid k); [exact K| | |reflexivity|].
    + intros j x X NJ. pose proof (eq_trans (eq_sym (RE off draws j)) X) as Y. destruct (N.eqb_spec j (al_id al)) as [->|]; [|exact (co_rec _ K _ _ Y NJ)].
      injection Y as <-. split; cbn; [exists al; repeat split; exact (OI _ _ Go)|intros _]. rewrite alive_of_ns. exact (OI _ _ Go).
    + exists ml, ml. split; [exact GL|]. split; [|reflexivity]. refine (eq_trans (RE off draws LID) _). destruct (N.eqb_spec LID (al_id al)) as [E|]; [congruence|exact GL].
    + intros b I. apply (queue_bcast _ _ k) in I; [|exact W|reflexivity]. destruct I as [I| ->]; [left; exact I|right]. apply mok_alive. left. exact (OI _ _ Go).
  - (* alive *)
    rename H into Go, H2 into G, H3 into NL. cbv zeta. set (m1 := mkM _ _ _ _ _ _). set (k2 := bcast C _ _ _).
    assert (cok k2 /\ grows k k2) as X.
    { eapply (cok_upd k _ (al_id al) (fun _ => m1) m); [exact K|exact G|exact NL| | |unfold k2; destruct takeover; reflexivity|].
      - intros j. pose proof (rec_upd (if takeover then next_gen k else k) (al_id al) (fun _ => m1) j) as E. destruct takeover; exact E.
      - split; cbn; [exists al; repeat split; exact (OI _ _ Go)|intros _]. rewrite alive_of_ns. exact (OI _ _ Go).
      - intros b I. apply (queue_bcast _ _ k) in I; [|exact W|destruct takeover; reflexivity]. destruct I as [I| ->]; [left; exact I|right]. apply mok_alive. left. exact (OI _ _ Go). }
    clearbody k2. destruct X as [X1 X2]. destruct (dead_or_left _); [|destruct (negb _)];
      (match goal with |- cok ?k3 /\ _ => destruct (cok_same k2 k3 X1) as [Y1 Y2]; [reflexivity|reflexivity|apply incl_refl|]; split; [exact Y1|exact (grows_trans _ _ _ X2 Y2)] end).
  - apply cok_same; [exact K|reflexivity|reflexivity|apply incl_refl].
  - subst o. contradiction.
  - (* age *)
    destruct (co_own _ K) as (ml & GL & _).
    assert (forall j, rec_at (age_member id delta k) j = if j =? id then option_map (fun m => m_set_change (tsub (m_change m) delta) m) (rec_at k j) else rec_at k j) as RE.
    { intros j. exact (rec_upd k id _ j). }
    apply (cok_mid k); [exact K| | |reflexivity|auto].
    + intros j x X NJ. rewrite RE in X. destruct (j =? id); [|exact (co_rec _ K _ _ X NJ)]. destruct (rec_at k j) as [y|] eqn:Y; [|discriminate].
      injection X as <-. exact (co_rec _ K _ _ Y NJ).
    + destruct (LID =? id) eqn:E; eexists _, _; (split; [exact GL|]; split; [rewrite RE, E, GL; reflexivity|reflexivity]).
  - (* reset *)
    destruct (co_own _ K) as (ml & GL & _). pose proof (kinv_step C _ now k _ V (s_reset C o now k H)) as V'.
    destruct (ki_local _ _ V') as (ml' & GL' & _). destruct (reset_eq C now k V) as (d & E).
    assert (forall j x, rec_at (reset_members C now k) j = Some x -> rec_at k j = Some x) as RE.
    { intros j x X. rewrite E in X. unfold rec_at in X. cbn in X.
      rewrite (perm_aget _ _ j (shuffle_perm _ _) (nodup_filter _ _ (ki_nodup _ _ V))) in X.
      rewrite aget_filter in X by exact (ki_nodup _ _ V). unfold rec_at. destruct (aget j (k_mem k)) as [y|]; [|discriminate]. destruct (kept C now (j, y)); [exact X|discriminate]. }
    apply (cok_mid k); [exact K| | | |].
    + intros j x X NJ. exact (co_rec _ K _ _ (RE _ _ X) NJ).
    + exists ml', ml'. auto.
    + rewrite E. cbn. destruct (existsb _ _); reflexivity.
    + rewrite E. intros b I. left. cbn in I. unfold queue in *. cbn in I. destruct (existsb _ _) in I; exact I.
  - (* leave *)
    rename H1 into GL. eapply (cok_mid k); [exact K| | |reflexivity|].
    + intros j x X NJ.
      pose proof (eq_trans (eq_sym (rec_upd (k_set_ev (filter (fun e => negb (is_dial e)) (k_ev k)) k) LID (fun m => m_set_state PLeft now (m_set_inc (k_inc k) (m_set_susp None m))) j)) X) as Y.
      destruct (N.eqb_spec j LID); [contradiction|]. exact (co_rec _ K _ _ Y NJ).
    + eexists m, _. split; [exact GL|]. split.
      * refine (eq_trans (rec_upd (k_set_ev (filter (fun e => negb (is_dial e)) (k_ev k)) k) LID (fun m => m_set_state PLeft now (m_set_inc (k_inc k) (m_set_susp None m))) LID) _).
        rewrite N.eqb_refl. change (rec_at (k_set_ev (filter (fun e => negb (is_dial e)) (k_ev k)) k) LID) with (rec_at k LID). rewrite GL. reflexivity.
      * reflexivity.
    + intros b I. apply (queue_bcast _ _ k) in I; [|exact W|reflexivity]. destruct I as [I| ->]; [left; exact I|right].
      apply mok_dead. eapply own_pub; eauto.
  - apply cok_same; [exact K|reflexivity|reflexivity|apply incl_refl].
  - apply cok_same; [exact K|reflexivity|reflexivity|apply incl_refl].
  - apply cok_same; [exact K|reflexivity|reflexivity|apply incl_refl].
  - apply cok_same; [exact K|reflexivity|reflexivity|]. intros b I. unfold queue in *. cbn in I.
    apply (step_from_queue (mbcast C) (k_bc k) t (proj1 W)) in I as [I|I]; [exact I|]. subst t. destruct o; contradiction.
  - apply cok_same; [exact K|reflexivity|reflexivity|apply incl_refl].
  - apply cok_same; [exact K|reflexivity|reflexivity|apply incl_refl].
Qed.

(** *** whole operations on the core *)
Lemma cok_steps o now k k' : kinv C k -> gq C k -> cok k -> opin o -> ksteps C o now k k' -> cok k' /\ grows k k'.
Proof.
  intros V W K OI S. induction S as [k|k1 k2 k3 S1 S2 IH]; [split; [exact K|apply grows_refl]|].
  destruct (cok_step o now k1 k2 V W K OI S1) as [K2 G2]. destruct IH as [K3 G3]; [exact (kinv_step C _ _ _ _ V S1)|exact (gq_step C _ _ _ _ HE S1 W)|exact K2|].
  split; [exact K3|exact (grows_trans _ _ _ G2 G3)].
Qed.
Lemma cok_expire now ids : forall k, kinv C k -> gq C k -> cok k -> (forall i, In i ids -> i <> LID) ->
  let k' := fold_left (fun k id => process_dead C (match aget id (k_mem k) with Some m => m_inc m | None => 0 end) id LID now k) ids k in cok k' /\ grows k k'.
Proof.
  induction ids as [|i ids IH]; intros k V W K NL; cbn [fold_left]; cbv zeta; [split; [exact K|apply grows_refl]|].
  destruct (aget i (k_mem k)) as [m|] eqn:G.
  - change (process_dead C (m_inc m) i LID now k) with (fst (core_step C k (KDead (m_inc m) i LID now))).
    set (k1 := fst (core_step C k (KDead (m_inc m) i LID now))).
    assert (cok k1 /\ grows k k1) as [K1 G1].
    { apply (cok_steps (KDead (m_inc m) i LID now) now k k1 V W K); [|exact (core_step_steps C k _ V)].
      split; [|exact Logic.I]. intros t g [_ ->]. cbn. apply (co_rec _ K i m G). apply NL. left. reflexivity. }
    destruct (IH k1) as [K2 G2]; [apply kinv_core_step, V|apply gq_op; assumption|exact K1|intros j J; apply NL; right; exact J|].
    split; [exact K2|exact (grows_trans _ _ _ G1 G2)].
  - assert (process_dead C 0 i LID now k = k) as -> by (unfold process_dead; rewrite G; reflexivity).
    apply IH; auto. intros j J. apply NL. right. exact J.
Qed.
Definition copin (o : cop) : Prop := opin o \/ exists t, o = KExpire t.
Lemma cok_op o k : kinv C k -> gq C k -> cok k -> copin o -> cok (fst (core_step C k o)) /\ grows k (fst (core_step C k o)).
Proof.
  intros V W K [OI|(t & ->)]; [exact (cok_steps _ _ _ _ V W K OI (core_step_steps C k o V))|].
  apply cok_expire; auto. intros i. exact (expired_not_local C t k i V).
Qed.
Lemma cok_run os : forall k, kinv C k -> gq C k -> cok k -> Forall copin os -> cok (fst (core_run C k os)) /\ grows k (fst (core_run C k os)).
Proof.
  intros k. rewrite core_run_fst. revert k. induction os as [|o os IH]; intros k V W K F; cbn [fold_left]; [split; [exact K|apply grows_refl]|].
  inversion F as [|? ? F1 F2]; subst. destruct (cok_op o k V W K F1) as [K1 G1].
  destruct (IH (fst (core_step C k o))) as [K2 G2]; [apply kinv_core_step, V|apply gq_op; assumption|exact K1|exact F2|].
  split; [exact K2|exact (grows_trans _ _ _ G1 G2)].
Qed.
(** an update of the metadata, from the state in which the operation begins *)
Lemma cok_meta k meta : kinv C k -> gq C k -> cok k -> k_inc k = B ->
  cok (fst (core_step C k (KMeta meta))) /\ grows k (fst (core_step C k (KMeta meta))).
Proof.
  intros V W K EB. pose proof (core_step_opt C k (KMeta meta) V Logic.I) as [E|S]; [rewrite E; split; [exact K|apply grows_refl]|].
  revert S. generalize (fst (core_step C k (KMeta meta))). intros k' S. inversion S; subst; try discriminate; try (cbn in *; contradiction).
  1: { match goal with h : aw_op |- _ => destruct h; discriminate end. }
  match goal with H : KMeta _ = KMeta _ |- _ => injection H as <- end.
  assert (wadd32 (k_inc k) 1 = B + 1) as EI.
  { rewrite EB. unfold wadd32. rewrite N.mod_small; [reflexivity|]. unfold u32_max in HB; unfold two32; lia. }
  cbv zeta. rewrite EI. destruct (co_own _ K) as (ml & GL & _).
  set (s := mkNS LID (c_addr C) PAlive meta (c_pv C) (c_dv C)).
  set (f := fun m => m_set_server s (m_set_inc (B + 1) m)).
  assert (forall j, rec_at (emit (EvUpdated s) (bcast C LID (MAlive (alive_of (B + 1) s)) (upd LID f (k_set_inc (B + 1) k)))) j = if j =? LID then option_map f (rec_at k j) else rec_at k j) as RE
    by (intros j; exact (rec_upd (k_set_inc (B + 1) k) LID f j)).
  eapply (cok_bump k _ (f ml)); [exact K|exact EB|reflexivity|rewrite RE, N.eqb_refl, GL; reflexivity| |].
  - intros j x X NJ. rewrite RE in X. destruct (N.eqb_spec j LID); [contradiction|]. exact (co_rec _ K _ _ X NJ).
  - intros b I. apply (queue_bcast _ _ k) in I; [|exact W|reflexivity]. destruct I as [I| ->]; [left; exact I|right].
    apply mok_alive. right. exists (f ml). rewrite RE, N.eqb_refl, GL. split; reflexivity.
Qed.

(** *** the endpoint around it *)
Record eok (e : ep) : Prop := mkEok {
  eo_core : cok (e_core e);
  eo_probes : forall s p, aget s (e_probes e) = Some p -> p_kind p = PKDetection -> ns_id (p_target p) <> LID /\ puba (ns_id (p_target p)) (p_inc p);
  eo_tx : forall t m, In t (e_tx e) -> In m (tx_msgs t) -> mok (e_core e) m;
  eo_int : forall id i, aget id (e_int e) = Some i -> mok (e_core e) (in_msg i);
  eo_cache : mok (e_core e) (e_cache e) }.

Lemma mok_states e j u : kinv C (e_core e) -> cok (e_core e) -> mok (e_core e) (MPushPull j (local_states e) u).
Proof.
  intros V K. set (k := e_core e) in *.
  assert (forall p, In p (local_states e) -> exists id m, rec_at k id = Some m /\ ns_id (m_server m) = id /\
    p = mkPNS (m_inc m) (ns_id (m_server m)) (ns_addr (m_server m)) (m_state m) (ns_meta (m_server m)) (ns_pv (m_server m)) (ns_dv (m_server m))) as L.
  { intros p P. unfold local_states in P. apply in_map_iff in P as ([id m] & <- & P). apply (aget_of_in _ _ _ (ki_nodup _ _ V)) in P.
    exists id, m. split; [exact P|]. split; [apply (ki_rec _ _ V id m P)|reflexivity]. }
  destruct (ki_local _ _ V) as (ml & GL & (EI & _)).
  split.
  - intros id inc (p & P & <- & <-). destruct (L p P) as (i & m & G & EN & ->). cbn. rewrite EN.
    destruct (N.eq_dec i LID) as [->|NL]; [|apply puba_pub; apply (co_rec _ K i m G NL)].
    assert (m = ml) by congruence. subst m. rewrite EI. eapply own_pub; eauto.
  - intros al (p & P & ST & ->). destruct (L p P) as (i & m & G & EN & ->). cbn in *.
    destruct (N.eq_dec i LID) as [E|NL]; [|left; apply (co_rec _ K i m G NL); exact ST].
    rewrite E in G. assert (m = ml) by congruence. subst m. right. exists ml. split; [exact G|]. rewrite EI. reflexivity.
Qed.
Lemma told_mok e m : kinv C (e_core e) -> cok (e_core e) -> told C e m -> mok (e_core e) m.
Proof.
  intros V K T. destruct m; cbn in T; try (apply mok_quiet; exact Logic.I); try contradiction.
  - destruct T as (r & G & -> & ->). apply mok_suspect. destruct (N.eq_dec id LID) as [->|NL]; [|apply puba_pub; apply (co_rec _ K id r G NL)].
    destruct (ki_local _ _ V) as (ml & GL & (EI & _)). unfold rec_at in GL. assert (r = ml) by congruence. subst r. rewrite EI. eapply own_pub; eauto.
  - subst. apply mok_states; assumption.
Qed.
Lemma gossip_src e m : gq C (e_core e) -> In m (snd (gossip_batch C e)) -> (exists b, In b (queue (e_core e)) /\ m = snd b) \/ exists d, m = MUserData d.
Proof.
  intros [W NW]. set (Q := k_bc (e_core e)) in *. unfold gossip_batch. fold Q. destruct (peek_first_sendable Q (c_mtu C)) as [len|]; [destruct (_ <? _)|].
  2-3: pose proof (batch_spec (mbcast C) (c_lim C (k_n (e_core e))) PART_LEN (c_mtu C - (TAG_LEN + COUNT_LEN)) Q W) as X;
       destruct (take_broadcasts_measured _ _ _ _ _) as [[Q' got] used]; destruct X as (_ & _ & rest & P & _);
       destruct (drain_user C _ _) as [e2 us]; cbn [snd]; intros I; apply in_app_iff in I as [I|I]; apply in_map_iff in I as (b & <- & I);
       [left; exists b; split; [|reflexivity]; eapply Permutation_in; [symmetry; exact P|]; apply in_or_app; left; exact I|right; eauto].
  cbn [snd]. rewrite (take_one_first (mbcast C) _ _ Q W). destruct (find _ _) as [x|] eqn:F; [|intros []].
  cbn [snd]. intros [<-|[]]. left. exists (i_b x). split; [|reflexivity]. apply in_map. apply find_some in F. apply F.
Qed.
Lemma gossip_cache e : e_cache (fst (gossip_batch C e)) = e_cache e.
Proof.
  unfold gossip_batch. destruct (peek_first_sendable _ _); [destruct (_ <? _); [reflexivity|]|];
    destruct (take_broadcasts_measured _ _ _ _ _) as [[Q got] used]; unfold drain_user; destruct (ub_take _ _ _ _ _) as [[? ?] ?]; reflexivity.
Qed.
Lemma fail_more s now e : let e' := probe_fail C s now e in e_cache e' = e_cache e /\ (forall id i, aget id (e_int e') = Some i -> aget id (e_int e) = Some i).
Proof.
  cbv zeta. unfold probe_fail. destruct (aget s (e_probes e)) as [p|]; [|auto]. set (e1 := e_set_acks _ _).
  set (e2 := match p_phase p with PhIndirect _ _ _ (Some rid) _ => remove_intent rid e1 | _ => e1 end).
  assert (e_cache e2 = e_cache e /\ (forall id i, aget id (e_int e2) = Some i -> aget id (e_int e) = Some i)) as H.
  { unfold e2. destruct (p_phase p) as [|? ? ? [rid|] ?]; split; auto. intros id i G. cbn in G. rewrite aget_adel in G. destruct (_ =? _); [discriminate|exact G]. }
  clearbody e2. destruct (p_kind p); [|exact H]. destruct (negb _); [exact H|]. destruct (same_instance _ _); exact H.
Qed.
Lemma farewell_more d fw e : e_cache (fst (farewell_payloads C d fw e)) = e_cache e.
Proof.
  unfold farewell_payloads. destruct (match fw with Some _ => _ | None => _ end) as [b r].
  destruct r; [destruct (b =? 0); [reflexivity|]|]; unfold drain_user; destruct (ub_take _ _ _ _ _) as [[? ?] ?]; reflexivity.
Qed.
Lemma leave_more now fw e : runs e = true -> e_cache (leave_with C now fw e) = e_cache e /\
  forall t m, In t (e_tx (leave_with C now fw e)) -> In m (tx_msgs t) -> m = MDead (leave_inc C e) LID LID \/ exists d, m = MUserData d.
Proof.
  intros R. rewrite (leave_eq C now fw e R). cbv zeta. set (live := live_addrs C _). set (dead := MDead _ _ _).
  set (P := match live with [] => (_, _) | _ => _ end).
  assert (e_cache (fst P) = e_cache e) as EC by (unfold P; destruct live; [reflexivity|exact (farewell_more dead fw (e_set_tx [] (left_ep C now e)))]).
  assert (forall t m, In t (map (fun to => match snd P with [] => TPacket to dead | _ => TCompound to (map MUserData (snd P) ++ [dead]) end) live) -> In m (tx_msgs t) ->
    m = dead \/ exists d, m = MUserData d) as ET.
  { intros t m T M. apply in_map_iff in T as (to & <- & _). destruct (snd P) as [|x r].
    - destruct M as [<-|[]]. left. reflexivity.
    - cbn [tx_msgs] in M. apply in_app_iff in M as [M|[<-|[]]]; [|left; reflexivity]. apply in_map_iff in M as (d & <- & _). right. eauto. }
  clearbody P. destruct live; split; assumption.
Qed.

(** what is left of the endpoint, in terms of the core before the step *)
Record erest (k : core) (e : ep) : Prop := mkEr {
  er_probes : forall s p, aget s (e_probes e) = Some p -> p_kind p = PKDetection -> ns_id (p_target p) <> LID /\ puba (ns_id (p_target p)) (p_inc p);
  er_tx : forall t m, In t (e_tx e) -> In m (tx_msgs t) -> mok k m;
  er_int : forall id i, aget id (e_int e) = Some i -> mok k (in_msg i);
  er_cache : mok k (e_cache e) }.
Lemma eok_erest e : eok e -> erest (e_core e) e.
Proof. intros []. constructor; assumption. Qed.
Lemma erest_ext k e e' : erest k e -> e_probes e' = e_probes e -> e_tx e' = e_tx e -> e_int e' = e_int e -> e_cache e' = e_cache e -> erest k e'.
Proof. intros [] H1 H2 H3 H4. constructor; rewrite ?H1, ?H2, ?H3, ?H4; assumption. Qed.
Lemma mok_answer k q m : answer q m -> mok k m.
Proof. intros []; apply mok_quiet; exact Logic.I. Qed.

Lemma erest_step e ls cr e' : einv C e -> gq C (e_core e) -> eok e -> estep C e ls cr e' -> erest (e_core e) e'.
Proof.
  intros I W E S. pose proof (eok_erest e E) as R. pose proof (ei_core _ _ I) as V. pose proof (eo_core _ E) as K.
  destruct S; try (eapply erest_ext; [exact R|reflexivity..]).
  - destruct (fail_rest C s now e) as (_ & _ & ET & _). cbv zeta in *. destruct (fail_more s now e) as [EC EI]. destruct R as [R1 R2 R3 R4]. constructor.
    + intros j q Q. rewrite probe_fail_probes in Q. destruct (j =? s); [discriminate|eauto].
    + rewrite ET. exact R2.
    + intros j i J. eauto.
    + rewrite EC. exact R4.
  - rename H into SR, H2 into EC. destruct SR as (_ & E1 & _ & _ & _ & E2 & _ & _ & E3 & _). destruct R as [R1 R2 R3 R4]. constructor; rewrite ?E1, ?E2, ?E3; auto.
    destruct EC as [-> | ->]; [exact R4|]. apply mok_states; assumption.
  - destruct R as [R1 R2 R3 R4]. constructor; auto. cbn. intros t0 m T M. apply in_app_iff in T as [T|[<-|[]]]; [eauto|].
    apply told_mok; auto. rewrite Forall_forall in H1. apply H1. exact M.
  - destruct R as [R1 R2 R3 R4]. constructor; auto. cbn. intros t0 x T M. apply in_app_iff in T as [T|[<-|[]]]; [eauto|].
    destruct M as [<-|[]]. eapply mok_answer; eauto.
  - destruct (gossip_rest C e) as (E1 & _ & _ & _ & E3 & E2 & _). pose proof (gossip_cache e) as E4. pose proof (fun m => gossip_src e m W) as GS.
    destruct (gossip_batch C e) as [g ms]. cbn [fst snd] in *. destruct R as [R1 R2 R3 R4].
    constructor; cbn [e_probes e_tx e_int e_cache e_set_tx]; rewrite ?E1, ?E2, ?E3, ?E4; auto.
    intros t m T M. apply in_app_iff in T as [T|T]; [eauto|]. apply in_flat_map in T as (to & _ & T).
    assert (In m ms) as IM by (unfold gossip_tx in T; destruct ms as [|a [|b r]]; [destruct T|destruct T as [<-|[]]; exact M|destruct T as [<-|[]]; exact M]).
    destruct (GS m IM) as [(b & Bq & ->)|(d & ->)]; [apply (co_bc _ K), Bq|apply mok_quiet; exact Logic.I].
  - rename H3 into BO. destruct R as [R1 R2 R3 R4]. constructor; auto. cbn. intros j q Q KD. rewrite aget_aset in Q. destruct (N.eqb_spec j s); [|eauto].
    apply Some_inj in Q. subst q. unfold born in BO. rewrite KD in BO. destruct BO as (_ & m & G & PB & ->). cbn.
    unfold probeable in PB. cbn [fst snd] in PB. apply andb_true_iff in PB as [PB _]. apply negb_true_iff, N.eqb_neq in PB.
    split; [exact PB|]. apply (co_rec _ K _ _ G PB).
  - rename H into G, H0 into PU. destruct R as [R1 R2 R3 R4]. constructor; auto. cbn. intros j q Q KD. rewrite aget_aset in Q. destruct (N.eqb_spec j s); [|eauto].
    apply Some_inj in Q. subst q. destruct (pupd_kind _ _ PU) as (EK & _ & ET & EI & _). rewrite ET, EI. apply (R1 s p G). congruence.
  - destruct R as [R1 R2 R3 R4]. constructor; auto. cbn. intros j q Q. rewrite aget_adel in Q. destruct (j =? s); [discriminate|eauto].
  - destruct R as [R1 R2 R3 R4]. constructor; auto. cbn. intros t0 x T M. apply in_app_iff in T as [T|[<-|[]]]; [eauto|].
    destruct M as [<-|[]]. eapply mok_answer; eauto.
  - rename H0 into TO. destruct R as [R1 R2 R3 R4]. constructor; auto. cbn. intros j q Q. rewrite aget_aset in Q. destruct (N.eqb_spec j (e_sid e)); [|eauto].
    apply Some_inj in Q. subst q. apply told_mok; assumption.
  - destruct R as [R1 R2 R3 R4]. constructor; auto. cbn. intros j q Q. rewrite aget_adel in Q. destruct (j =? id); [discriminate|eauto].
  - destruct R as [R1 R2 R3 R4]. constructor; auto; cbn; intros j q Q.
    + rewrite (perm_aget _ _ j (shuffle_perm _ _) (ei_pnd _ _ I)) in Q. eauto.
    + rewrite (perm_aget _ _ j (shuffle_perm _ _) (ei_ind _ _ I)) in Q. eauto.
  - pose proof (leave_rest C now fw e H) as LR. cbv zeta in LR. destruct LR as (E1 & _ & _ & _ & E3 & _). destruct (leave_more now fw e H) as [E4 ET].
    destruct R as [R1 R2 R3 R4]. constructor; rewrite ?E1, ?E3, ?E4; auto; [|discriminate].
    intros t m T M. destruct (ET t m T M) as [->|(d & ->)]; [|apply mok_quiet; exact Logic.I]. apply mok_dead.
    destruct (ki_local _ _ V) as (ml & GL & (EI & _)). unfold leave_inc. unfold rec_at in GL. rewrite GL, EI, N.max_id. eapply own_pub; eauto.
  - pose proof (poll_rest C e) as PR. cbv zeta in PR. destruct PR as (E1 & _ & _ & _ & E3 & _ & _ & _ & _ & _ & _ & E2 & _).
    assert (e_cache (fst (poll_transmit C e)) = e_cache e) as E4.
    { unfold poll_transmit. destruct (e_tx e); [reflexivity|]. cbn. destruct (e_flush e); [|reflexivity]. destruct (_ <=? _); reflexivity. }
    destruct R as [R1 R2 R3 R4]. constructor; rewrite ?E1, ?E3, ?E4; auto. rewrite E2. intros t m T. apply R2. destruct (e_tx e); [destruct T|right; exact T].
Qed.
Definition labin (l : lab) : Prop := match l with LOp o => copin o | LFail _ _ _ _ => True end.
Lemma no_origin o : (forall now g, ~ origin C o now g) -> match o with KMeta _ => False | _ => True end -> copin o.
Proof. intros H M. left. split; [intros now g G; destruct (H _ _ G)|exact M]. Qed.
Lemma estep_labels e ls cr e' : eok e -> estep C e ls cr e' -> Forall labin ls -> Forall copin (map unlab ls).
Proof.
  intros E S F. apply Forall_map. apply Forall_forall. intros l L. rewrite Forall_forall in F. specialize (F l L). destruct l as [o|s p now o]; [exact F|].
  cbn [unlab]. clear F. inversion S; subst; try (destruct L; fail); try (destruct L as [L|[]]; discriminate).
  - match goal with G : aget ?s0 (e_probes e) = Some ?p0 |- _ => rename G into GP; pose proof (eo_probes _ E s0 p0 GP) as PO end.
    apply in_app_iff in L as [L|L].
    + apply in_map_iff in L as (o' & EO & L). injection EO as <- <- <- <-. unfold fail_ops in L. destruct (p_kind _); [|destruct L].
      destruct (p_disp _); [|destruct L]. destruct L as [<-|L]; [apply no_origin; [intros ? ? []|exact Logic.I]|].
      destruct (same_instance _ _); [|destruct L]. destruct L as [<-|[]]. left. split; [|exact Logic.I]. intros t g [_ ->]. cbn. apply (PO eq_refl).
    + destruct (p_kind _); [destruct L|]. destruct L as [L|[]]; discriminate.
  - apply in_map_iff in L as (x & X & _). discriminate.
  - apply in_map_iff in L as (x & X & _). discriminate.
Qed.
Lemma eok_step e ls cr e' : einv C e -> gq C (e_core e) -> eok e -> estep C e ls cr e' -> Forall labin ls -> eok e' /\ grows (e_core e) (e_core e').
Proof.
  intros I W E S F. destruct (erest_step e ls cr e' I W E S) as [R1 R2 R3 R4].
  destruct (cok_run (map unlab ls) (e_core e) (ei_core _ _ I) W (eo_core _ E) (estep_labels _ _ _ _ E S F)) as [K G].
  rewrite <- (estep_core C _ _ _ _ S) in K, G. split; [|exact G]. constructor; [exact K|exact R1|..].
  - intros t m T M. eapply mok_mono; eauto.
  - intros id i J. eapply mok_mono; eauto.
  - eapply mok_mono; eauto.
Qed.
Lemma eok_steps e ls cr e' : esteps C e ls cr e' -> einv C e -> gq C (e_core e) -> eok e -> Forall labin ls -> eok e' /\ grows (e_core e) (e_core e').
Proof.
  induction 1 as [e|e1 e2 e3 k1 k2 c1 c2 S T IH]; intros I W E F; [split; [exact E|apply grows_refl]|].
  apply Forall_app in F as [F1 F2]. destruct (eok_step _ _ _ _ I W E S F1) as [E2 G2].
  destruct IH as [E3 G3]; [exact (einv_step C _ _ _ _ I S)| |exact E2|exact F2|split; [exact E3|exact (grows_trans _ _ _ G2 G3)]].
  rewrite (estep_core C _ _ _ _ S). apply gq_run; [exact HE|apply (ei_core _ _ I)|exact W].
Qed.

(** *** the calls *)
(** what a call is told *)
Definition call_in (o : eop) : Prop :=
  match o with
  | EPacket _ (MAlive al) _ => A al
  | EPacket _ (MSuspect inc id _) _ | EPacket _ (MDead inc id _) _ => puba id inc
  | EStreamEv (SEReply _ st _ _ _) _ | EStreamEv (SERequest _ st _ _ _) _ | EMerge st _ =>
    forall p, In p st -> puba (pn_id p) (pn_inc p) /\ (pn_state p = PAlive -> A (pns_alive p))
  | _ => True
  end.
Lemma merge_in_ok st now : (forall p, In p st -> puba (pn_id p) (pn_inc p) /\ (pn_state p = PAlive -> A (pns_alive p))) -> copin (KMerge st now).
Proof.
  intros H. left. split; [|exact Logic.I]. intros t g (_ & p & P & HG). destruct (H p P) as [H1 H2]. unfold heard in HG.
  destruct (pn_state p); try discriminate; injection HG as <-; cbn; auto.
Qed.
Lemma call_labels o l : call_in o -> match o with EMeta _ => False | _ => True end -> lab_of o l -> labin l.
Proof.
  intros CI NM [L|(k & -> & D)].
  - destruct l as [x|]; [|exact Logic.I]. cbn in *. destruct x; try contradiction; try (apply no_origin; [intros ? ? []|exact Logic.I]; fail); exact (or_intror (ex_intro _ _ eq_refl)).
  - cbn [labin]. destruct o; cbn [direct] in D; try contradiction;
      try (destruct D as [<-|[]]; apply no_origin; [intros ? ? []|exact Logic.I]; fail).
    + destruct m; try contradiction; destruct D as [<-|[]]; left; (split; [|exact Logic.I]); intros t g [_ ->]; exact CI.
    + destruct ev; try contradiction; destruct D as [<-|[]]; apply merge_in_ok; exact CI.
    + destruct D as [<-|[]]. apply merge_in_ok. exact CI.
    + destruct D as [<-|[<-|[]]]; apply no_origin; try (intros ? ? []); exact Logic.I.
Qed.
Lemma eok_call e o : einv C e -> gq C (e_core e) -> eok e -> k_inc (e_core e) = B -> call_in o ->
  eok (fst (ep_step C e o)) /\ grows (e_core e) (e_core (fst (ep_step C e o))).
Proof.
  intros I W E EB CI. assert ((exists m, o = EMeta m) \/ match o with EMeta _ => False | _ => True end) as [(m & ->)|NM] by (destruct o; eauto).
  - cbn [ep_step fst]. destruct (cok_meta (e_core e) m (ei_core _ _ I) W (eo_core _ E) EB) as [K G]. split; [|exact G].
    destruct E as [_ R1 R2 R3 R4]. constructor; [exact K|exact R1|..].
    + intros t x T M. eapply mok_mono; [exact G|eauto].
    + intros id i J. eapply mok_mono; [exact G|eauto].
    + eapply mok_mono; [exact G|eauto].
  - destruct (step_chain C e o I) as (ls & cr & S & _ & F). eapply eok_steps; eauto. eapply Forall_impl; [|exact F]. intros l. apply call_labels; assumption.
Qed.
(** what a call hands back was there before it *)
Lemma outs_ok e o x m : gq C (e_core e) -> eok e -> In x (snd (ep_step C e o)) -> In m (out_msgs x) -> mok (e_core e) m.
Proof.
  intros W E X M. destruct E as [K R1 R2 R3 R4].
  destruct o; cbn [ep_step] in X; try (destruct X; fail).
  - unfold handle_stream_event in X. destruct ev; cbn [snd] in X; try (destruct X; fail); destruct (negb (runs e)); try (destruct X; fail).
    + destruct (e_merge e _); [destruct X|]. destruct X as [<-|[]]. destruct M.
    + destruct X as [<-|[]]. destruct M.
    + destruct (e_merge e _); cbn [snd] in X; destruct X as [<-|[]]; [destruct M as [<-|[]]; exact R4|destruct M].
  - destruct (ping C nd now e) as [e1 [s|]]; destruct X as [<-|[]]; destruct M.
  - destruct (announce C _) as [i e1]. destruct X as [<-|[]]; destruct M.
  - unfold dialled in X. destruct (push_pull_direct C peer join now e) as [[i e1] ok]. cbn [snd] in X. destruct ok; [|destruct X]. destruct (aget i (e_int e1)); [|destruct X].
    destruct X as [<-|[]]; destruct M.
  - destruct (announce C _) as [i e1]. destruct X as [<-|[]]; destruct M.
  - unfold dialled in X. destruct (reliable_ping_direct C id addr seq deadline e) as [[i e1] ok]. cbn [snd] in X. destruct ok; [|destruct X]. destruct (aget i (e_int e1)); [|destruct X].
    destruct X as [<-|[]]; destruct M.
  - destruct (runs e); [destruct (announce C _) as [i e1]|]; destruct X as [<-|[]]; destruct M.
  - destruct (runs e); [|destruct X as [<-|[]]; destruct M]. unfold dialled in X. destruct (user_message_direct C peer data now e) as [[i e1] ok]. cbn [snd] in X. destruct ok; [|destruct X]. destruct (aget i (e_int e1)); [|destruct X].
    destruct X as [<-|[]]; destruct M.
  - unfold dial_succeeded in X. destruct (aget id (e_int e)) as [i|] eqn:G; [|destruct X]. destruct (_ || _); [destruct X|]. destruct X as [<-|[]].
    destruct M as [<-|[]]. eauto.
  - unfold accept_stream in X. destruct (negb (runs e)); [destruct X|]. destruct X as [<-|[]]. destruct M.
  - cbn [snd] in X. destruct (k_ev (e_core e)); [destruct X|]. destruct X as [<-|[]]. destruct M.
  - unfold poll_transmit in X. destruct (e_tx e) as [|t r] eqn:T; [destruct X|]. cbn [snd] in X. destruct X as [<-|[]]. apply (R2 t); [left; reflexivity|exact M].
  - unfold drain_broadcasts in X. cbn [snd] in X. destruct X as [<-|[]]. cbn [out_msgs] in M. apply in_map_iff in M as (b & <- & I).
    apply (co_bc _ K). unfold queue. destruct W as [W _].
    pose proof (batch_spec (mbcast C) (c_lim C (k_n (e_core e))) 0 u64_max (k_bc (e_core e)) W) as Y.
    destruct (take_broadcasts_measured _ _ _ _ _) as [[Q' got] used]. cbn [fst snd] in I. destruct Y as (_ & _ & rest & P & _).
    eapply Permutation_in; [symmetry; exact P|]. apply in_or_app. left. exact I.
  - cbn [snd res] in X. unfold res in X. cbn [snd] in X. destruct (snd _); [destruct X|]. destruct X as [<-|[]]; destruct M.
  - unfold res in X. cbn [snd] in X. destruct (snd _); [destruct X|]. destruct X as [<-|[]]; destruct M.
  - unfold res in X. cbn [snd] in X. destruct (snd _); [destruct X|]. destruct X as [<-|[]]; destruct M.
  - unfold res in X. cbn [snd] in X. destruct (snd _); [destruct X|]. destruct X as [<-|[]]; destruct M.
  - unfold res in X. cbn [snd] in X. destruct (snd _); [destruct X|]. destruct X as [<-|[]]; destruct M.
  - cbn [snd] in X. destruct (fst _); [destruct X|]. destruct X as [<-|[]]; destruct M.
Qed.
End Op.

(** ** The cluster *)
Section Weaken.
Variable C : cfg.
Variables A A' : alive -> Prop.
Variable HAA : forall al, A al -> A' al.
Lemma puba_weaken id inc : puba A id inc -> puba A' id inc.
Proof. intros (al & H & E). exists al. auto. Qed.
Lemma mok_weaken k m : mok C A k m -> mok C A' k m.
Proof.
  assert (forall al, auth C A k al -> auth C A' k al) as U by (intros al [H|H]; [left; auto|right; exact H]).
  intros [H1 H2]. split; [|auto]. intros id inc N. destruct (H1 id inc N) as (al & X & E). exists al. auto.
Qed.
Lemma rok_weaken id m : rok A id m -> rok A' id m.
Proof. intros [H1 H2]. split; [apply puba_weaken, H1|auto]. Qed.
(** the view of the same endpoint when more has been said *)
Lemma eok_weaken B B' e : eok C A B e ->
  (exists m, rec_at (e_core e) (c_id C) = Some m /\ k_inc (e_core e) = B' /\ A' (alive_of B' (m_server m))) -> eok C A' B' e.
Proof.
  intros [K R1 R2 R3 R4] (m & G & EI & O). constructor.
  - constructor; [exists m; split; [exact G|left; auto]| |].
    + intros id x X NL. apply rok_weaken. exact (co_rec _ _ _ _ K id x X NL).
    + intros b Q. apply mok_weaken. exact (co_bc _ _ _ _ K b Q).
  - intros s p P KD. destruct (R1 s p P KD). split; [assumption|apply puba_weaken; assumption].
  - intros t x T X. apply mok_weaken. eauto.
  - intros id i X. apply mok_weaken. eauto.
  - apply mok_weaken, R4.
Qed.
End Weaken.

Section Cluster.
Variable Cs : N -> cfg.
Variable HW : well_configured Cs.
Definition published (os : list clop) (al : alive) : Prop := exists pre suf, os = pre ++ suf /\ self (after Cs pre) (al_id al) al.
(** a message from the network *)
Definition nok (A : alive -> Prop) (m : msg) : Prop :=
  (forall id inc, names m id inc -> puba A id inc) /\ (forall al, describes m al -> A al).
Record cinv (A : alive -> Prop) (c : cluster) : Prop := mkCI {
  ci_node : forall i e, cl_node c i = Some e -> einv (Cs i) e /\ gq (Cs i) (e_core e) /\ eok (Cs i) A (k_inc (e_core e)) e;
  ci_le : forall al, A al -> exists e, cl_node c (al_id al) = Some e /\ al_inc al <= k_inc (e_core e);
  ci_fun : forall al al', A al -> A al' -> al_id al = al_id al' -> al_inc al = al_inc al' -> al = al';
  ci_net : forall m, In m (cl_net c) -> nok A m }.
Lemma cinv_iff A A' c : (forall al, A al <-> A' al) -> cinv A c -> cinv A' c.
Proof.
  intros H [H1 H2 H3 H4]. constructor.
  - intros i e E. destruct (H1 i e E) as (X & Y & Z). split; [exact X|]. split; [exact Y|].
    eapply (eok_weaken (Cs i) A A'); [intros al; apply H|exact Z|]. destruct (co_own _ _ _ _ (eo_core _ _ _ _ Z)) as (m & G & [[_ O]|O]); [|lia].
    exists m. split; [exact G|]. split; [reflexivity|]. apply H, O.
  - intros al X. apply H2, H, X.
  - intros al al' X Y. apply H3; apply H; assumption.
  - intros m M. destruct (H4 m M) as [N1 N2]. split; [intros id inc N; apply (puba_weaken A A'); [intros al; apply H|auto]|]. intros al N. apply H; auto.
Qed.
Lemma cfg_id i : c_id (Cs i) = i.
Proof. apply HW. Qed.
Lemma cfg_enc i : enc_ok (Cs i).
Proof. intros m. apply HW. Qed.
Lemma self_own c i e al : cl_node c i = Some e -> einv (Cs i) e -> (self c i al <-> own (Cs i) (e_core e) al).
Proof.
  intros E I. unfold self, own. rewrite cfg_id.
  assert (forall m, rec_at (e_core e) i = Some m -> ns_id (m_server m) = i) as ID by (intros m G; apply (ki_rec _ _ (ei_core _ _ I) i m G)).
  split.
  - intros (e1 & m & X & G & ->). assert (e1 = e) by congruence. subst e1. exists m. split; [exact G|]. unfold alive_of. rewrite (ID m G). reflexivity.
  - intros (m & G & ->). exists e, m. split; [exact E|]. split; [exact G|]. unfold alive_of. rewrite (ID m G). reflexivity.
Qed.
Lemma self_id c i al : self c i al -> al_id al = i.
Proof. intros (e & m & _ & _ & ->). reflexivity. Qed.
Lemma after_snoc os o : after Cs (os ++ [o]) = cl_step Cs (after Cs os) o.
Proof. unfold after, cl_run. rewrite fold_left_app. reflexivity. Qed.
Lemma published_snoc os o al : published (os ++ [o]) al <-> published os al \/ self (after Cs (os ++ [o])) (al_id al) al.
Proof.
  split.
  - intros (pre & suf & E & S). destruct suf as [|x suf _] using rev_ind.
    + rewrite app_nil_r in E. subst pre. right. exact S.
    + rewrite app_assoc in E. apply app_inj_tail in E as [E _]. left. exists pre, suf. auto.
  - intros [(pre & suf & E & S)|S].
    + exists pre, (suf ++ [o]). rewrite app_assoc, <- E. auto.
    + exists (os ++ [o]), []. rewrite app_nil_r. auto.
Qed.
Lemma own_fun C k al al' : own C k al -> own C k al' -> al = al'.
Proof. intros (m & G & ->) (m' & G' & ->). congruence. Qed.
Lemma own_inc_of C k al : own C k al -> al_inc al = k_inc k.
Proof. intros (m & _ & ->). reflexivity. Qed.

(** the endpoint of a node that starts *)
Lemma eok_new C (A : alive -> Prop) t0 e : enc_ok C -> ep_new C t0 = Some e -> (forall al, own C (e_core e) al -> A al) ->
  eok C A (k_inc (e_core e)) e.
Proof.
  intros HE N O. pose proof (einv_new C t0 e N) as I.
  assert (e_core e = core_new C t0 /\ e_probes e = [] /\ e_tx e = [] /\ e_int e = [] /\ e_cache e = MPushPull false (local_states e) (e_snap e)) as (EC & EP & ET & EI & ECA).
  { unfold ep_new in N. destruct (cfg_ok C); [|discriminate]. apply Some_inj in N. subst e. unfold refresh_cache. rewrite andb_false_r. repeat split. }
  assert (cok C A (k_inc (e_core e)) (e_core e)) as K.
  { set (s := mkNS (c_id C) (c_addr C) PAlive (c_meta0 C) (c_pv C) (c_dv C)).
    assert (rec_at (e_core e) (c_id C) = Some (mkM s (c_inc0 C) t0 PAlive None 1)) as G.
    { rewrite EC. unfold rec_at. cbn. rewrite N.eqb_refl. reflexivity. }
    constructor.
    - eexists. split; [exact G|]. left. split; [reflexivity|]. apply O. eexists. split; [exact G|reflexivity].
    - intros id m G' NL. rewrite EC in G'. unfold rec_at in G'. cbn in G'. destruct (N.eqb_spec (c_id C) id); [congruence|]. destruct (N.eqb_spec id (c_id C)); [congruence|]. discriminate.
    - intros b Q. rewrite EC in Q. unfold core_new in Q. cbv zeta in Q.
      change (In b (queue (bcast C (c_id C) (MAlive (alive_of (c_inc0 C) s)) (mkCore [(c_id C, mkM s (c_inc0 C) t0 PAlive None 1)] di_new (c_inc0 C) 2 Running 0
             (mkAware (c_aware_max C) 0) bq_new [] 0 (fun _ => true))))) in Q.
      apply (queue_bcast C _ _ (k_set_bc bq_new (core_new C t0))) in Q; [|split; [apply wfq_new|intros ? []]|reflexivity].
      destruct Q as [[]| ->]. apply mok_alive. right. eexists. split; [exact G|]. rewrite EC. reflexivity. }
  constructor; [exact K|rewrite EP; discriminate|rewrite ET; intros ? ? []|rewrite EI; discriminate|].
  rewrite ECA. eapply mok_states; [exact (ei_core _ _ I)|exact K].
Qed.

(** what comes from the network may be told *)
Lemma nok_call A net o i eo : (forall m, In m net -> nok A m) -> cl_call net o = Some (i, eo) -> call_in A eo.
Proof.
  intros H. assert (forall n m, nth_error net n = Some m -> nok A m) as HN by (intros n m E; apply H; eapply nth_error_In; eauto).
  assert (forall n join st user p, nth_error net n = Some (MPushPull join st user) -> In p st -> puba A (pn_id p) (pn_inc p) /\ (pn_state p = PAlive -> A (pns_alive p))) as HP.
  { intros n join st user p E P. destruct (HN n _ E) as [N1 N2]. split; [apply N1; exists p; auto|]. intros X. apply N2. exists p. auto. }
  destruct o; cbn [cl_call]; intros E; try discriminate.
  - destruct (nth_error net n) as [m|] eqn:NE; [|discriminate]. injection E as <- <-. destruct (HN n m NE) as [N1 N2].
    destruct m; cbn [call_in]; try exact Logic.I; [apply N1|apply N2|apply N1]; cbn; auto.
  - destruct (nth_error net n) as [m|] eqn:NE; [|discriminate]. destruct m; try discriminate. injection E as <- <-. cbn. intros p P. eapply HP; eauto.
  - destruct (nth_error net n) as [m|] eqn:NE; [|discriminate]. destruct m; try discriminate. injection E as <- <-. cbn. intros p P. eapply HP; eauto.
  - destruct (nth_error net n) as [m|] eqn:NE; [|discriminate]. destruct m; try discriminate. injection E as <- <-. cbn. intros p P. eapply HP; eauto.
  - destruct (claim_free o) eqn:F; [|discriminate]. injection E as <- <-. destruct o; try exact Logic.I; try discriminate; cbn in *.
    + destruct m; try exact Logic.I; discriminate.
    + destruct ev; try exact Logic.I; discriminate.
Qed.

Lemma cinv_put A c i e' net' :
  cinv A c ->
  einv (Cs i) e' -> gq (Cs i) (e_core e') ->
  eok (Cs i) (fun al => A al \/ own (Cs i) (e_core e') al) (k_inc (e_core e')) e' ->
  (forall e, cl_node c i = Some e -> k_inc (e_core e) <= k_inc (e_core e')) ->
  (forall al, A al -> al_id al = i -> al_inc al = k_inc (e_core e') -> own (Cs i) (e_core e') al) ->
  (forall m, In m net' -> nok A m) ->
  cinv (fun al => A al \/ own (Cs i) (e_core e') al) (mkCl (cl_node (cl_put i e' c)) net').
Proof.
  intros [H1 H2 H3 H4] I' W' E' LE FN NO.
  assert (forall al, own (Cs i) (e_core e') al -> al_id al = i) as OID.
  { intros al (m & G & ->). rewrite cfg_id in G. cbn. apply (ki_rec _ _ (ei_core _ _ I') i m G). }
  constructor; cbn [cl_node cl_put cl_net].
  - intros j e X. destruct (N.eqb_spec j i) as [->|NE].
    + apply Some_inj in X. subst e. auto.
    + destruct (H1 j e X) as (X1 & X2 & X3). split; [exact X1|]. split; [exact X2|].
      eapply (eok_weaken (Cs j) A); [intros al Y; left; exact Y|exact X3|]. destruct (co_own _ _ _ _ (eo_core _ _ _ _ X3)) as (m & G & [[_ O]|O]); [|lia].
      exists m. split; [exact G|]. split; [reflexivity|]. left. exact O.
  - intros al [X|X].
    + destruct (H2 al X) as (e & E & L). destruct (N.eqb_spec (al_id al) i) as [EI|]; [|eauto]. exists e'. split; [reflexivity|]. rewrite EI in E. specialize (LE e E). lia.
    + rewrite (OID al X), N.eqb_refl. exists e'. split; [reflexivity|]. rewrite (own_inc_of _ _ _ X). lia.
  - intros al al' [X|X] [Y|Y] EI EN.
    + apply H3; assumption.
    + apply (own_fun (Cs i) (e_core e')); [|exact Y]. apply FN; [exact X|rewrite EI; apply OID, Y|rewrite EN; apply (own_inc_of _ _ _ Y)].
    + apply (own_fun (Cs i) (e_core e')); [exact X|]. apply FN; [exact Y|rewrite <- EI; apply OID, X|rewrite <- EN; apply (own_inc_of _ _ _ X)].
    + apply (own_fun (Cs i) (e_core e')); assumption.
  - intros m M. destruct (NO m M) as [N1 N2]. split; [|intros al D; left; auto]. intros id inc N. apply (puba_weaken A); [intros al Y; left; exact Y|auto].
Qed.

Lemma published_put os o i e' net' : after Cs (os ++ [o]) = mkCl (cl_node (cl_put i e' (after Cs os))) net' -> einv (Cs i) e' ->
  forall al, (published os al \/ own (Cs i) (e_core e') al) <-> published (os ++ [o]) al.
Proof.
  intros EA I' al. rewrite published_snoc. assert (cl_node (after Cs (os ++ [o])) i = Some e') as EN by (rewrite EA; cbn; rewrite N.eqb_refl; reflexivity).
  split; (intros [H|H]; [left; exact H|]).
  - right. pose proof (proj2 (self_own _ i e' al EN I') H) as S. rewrite (self_id _ _ _ S). exact S.
  - destruct (N.eq_dec (al_id al) i) as [EI|NI].
    + right. rewrite EI in H. apply (self_own _ i e' al EN I'), H.
    + left. exists os, []. rewrite app_nil_r. split; [reflexivity|]. destruct H as (e & m & X & R). exists e, m. split; [|exact R].
      rewrite EA in X. cbn in X. destruct (N.eqb_spec (al_id al) i); [contradiction|exact X].
Qed.
Lemma published_same os o : after Cs (os ++ [o]) = after Cs os -> forall al, published os al <-> published (os ++ [o]) al.
Proof.
  intros E al. rewrite published_snoc. split; [auto|]. intros [H|H]; [exact H|]. exists os, []. rewrite app_nil_r. rewrite E in H. auto.
Qed.

Lemma cinv_step os o : (forall i n, own_inc (after Cs os) i n -> n < u32_max) ->
  cinv (published os) (after Cs os) -> cinv (published (os ++ [o])) (after Cs (os ++ [o])).
Proof.
  intros CALM H. set (c := after Cs os) in *.
  assert (after Cs (os ++ [o]) = c -> cinv (published (os ++ [o])) (after Cs (os ++ [o]))) as SAME.
  { intros E. rewrite E. eapply cinv_iff; [apply published_same, E|exact H]. }
  assert (forall i e' net', after Cs (os ++ [o]) = mkCl (cl_node (cl_put i e' c)) net' -> einv (Cs i) e' ->
    cinv (fun al => published os al \/ own (Cs i) (e_core e') al) (mkCl (cl_node (cl_put i e' c)) net') ->
    cinv (published (os ++ [o])) (after Cs (os ++ [o]))) as PUT.
  { intros i e' net' E I X. rewrite E. eapply cinv_iff; [eapply published_put; eauto|exact X]. }
  assert (forall i eo e, cl_call (cl_net c) o = Some (i, eo) -> cl_node c i = Some e ->
    after Cs (os ++ [o]) = mkCl (cl_node (cl_put i (fst (ep_step (Cs i) e eo)) c)) (cl_net c ++ flat_map out_msgs (snd (ep_step (Cs i) e eo))) ->
    cinv (published (os ++ [o])) (after Cs (os ++ [o]))) as CALL.
  { intros i eo e CC E EA. destruct (ci_node _ _ H i e E) as (I & W & K).
    assert (einv (Cs i) (fst (ep_step (Cs i) e eo))) as I' by (apply einv_op, I).
    apply (PUT i _ _ EA I'). pose proof (CALM i (k_inc (e_core e)) (ex_intro _ e (conj E eq_refl))) as CB.
    assert (forall al, published os al -> al_id al = c_id (Cs i) -> al_inc al <= k_inc (e_core e)) as HA.
    { intros al X EI. destruct (ci_le _ _ H al X) as (e0 & E0 & L). rewrite cfg_id in EI. rewrite EI in E0. assert (e0 = e) by congruence. subst e0. exact L. }
    pose proof (nok_call _ _ _ _ _ (ci_net _ _ H) CC) as CI.
    destruct (eok_call (Cs i) (published os) (k_inc (e_core e)) (cfg_enc i) HA CB e eo I W K eq_refl CI) as [K' _].
    assert (gq (Cs i) (e_core (fst (ep_step (Cs i) e eo)))) as W'.
    { destruct (step_chain (Cs i) e eo I) as (ls & cr & S & _). rewrite (esteps_core _ _ _ _ _ S). apply gq_run; [apply cfg_enc|apply (ei_core _ _ I)|exact W]. }
    pose proof (outs_ok (Cs i) (published os) (k_inc (e_core e)) e eo) as OUT.
    set (e' := fst (ep_step (Cs i) e eo)) in *. destruct (co_own _ _ _ _ (eo_core _ _ _ _ K')) as (m' & G' & O').
    assert (forall al, own (Cs i) (e_core e) al -> published os al) as OP.
    { intros al (m & G & ->). destruct (co_own _ _ _ _ (eo_core _ _ _ _ K)) as (m0 & G0 & [[_ O]|O]); [|lia]. assert (m0 = m) by congruence. subst m0. exact O. }
    apply cinv_put.
    - exact H.
    - exact I'.
    - exact W'.
    - eapply (eok_weaken (Cs i) (published os)); [intros al Y; left; exact Y|exact K'|]. exists m'. split; [exact G'|]. split; [reflexivity|]. right. exists m'. auto.
    - intros e0 E0. assert (e0 = e) by congruence. subst e0. destruct O' as [[O' _]|O']; lia.
    - intros al X EI EN. destruct O' as [[EB O']|EB].
      + assert (al = alive_of (k_inc (e_core e)) (m_server m')) as ->.
        { apply (ci_fun _ _ H); [exact X|exact O'| |rewrite EN, EB; reflexivity]. rewrite EI. cbn. rewrite cfg_id in G'. symmetry. apply (ki_rec _ _ (ei_core _ _ I') i m' G'). }
        exists m'. rewrite EB. auto.
      + specialize (HA al X ltac:(rewrite cfg_id; exact EI)). lia.
    - intros m M. apply in_app_iff in M as [M|M]; [exact (ci_net _ _ H m M)|]. apply in_flat_map in M as (x & X & M).
      destruct (OUT x m W K X M) as [N1 N2].
      assert (forall al, auth (Cs i) (published os) (e_core e) al -> published os al) as AU by (intros al [Y|Y]; auto).
      split; [intros id inc N; destruct (N1 id inc N) as (al & Y & Z); exists al; auto|auto]. }
  assert (after Cs (os ++ [o]) = cl_step Cs c o) as EA by apply after_snoc.
  assert ((exists i t, o = CStart i t) \/ match o with CStart _ _ => False | _ => True end) as [(i & t & ->)|NS] by (destruct o; eauto).
  - cbn [cl_step] in EA. destruct (cl_node c i) as [e|] eqn:E; [apply SAME, EA|]. destruct (ep_new (Cs i) t) as [e|] eqn:N; [|apply SAME, EA].
    pose proof (einv_new _ _ _ N) as I. apply (PUT i e (cl_net c) EA I).
    assert (forall al, published os al -> al_id al = i -> False) as NO.
    { intros al X EI. destruct (ci_le _ _ H al X) as (e0 & E0 & _). congruence. }
    apply cinv_put.
    + exact H.
    + exact I.
    + assert (e_core e = core_new (Cs i) t) as EC.
      { unfold ep_new in N. destruct (cfg_ok (Cs i)); [|discriminate]. apply Some_inj in N. subst e. unfold refresh_cache. rewrite andb_false_r. reflexivity. }
      rewrite EC. apply gq_new, cfg_enc.
    + eapply eok_new; [apply cfg_enc|exact N|]. intros al X. right. exact X.
    + intros e0 E0. congruence.
    + intros al X EI. destruct (NO al X EI).
    + exact (ci_net _ _ H).
  - assert (cl_step Cs c o = match cl_call (cl_net c) o with
      | Some (i, eo) => match cl_node c i with
        | Some e => let '(e', outs) := ep_step (Cs i) e eo in mkCl (cl_node (cl_put i e' c)) (cl_net c ++ flat_map out_msgs outs)
        | None => c end
      | None => c end) as ES by (destruct o; try contradiction; reflexivity).
    rewrite ES in EA. destruct (cl_call (cl_net c) o) as [[i eo]|] eqn:CC; [|apply SAME, EA].
    destruct (cl_node c i) as [e|] eqn:E; [|apply SAME, EA]. apply (CALL i eo e eq_refl E). rewrite EA. destruct (ep_step (Cs i) e eo); reflexivity.
Qed.
Lemma cinv_run os : calm Cs os -> cinv (published os) (after Cs os).
Proof.
  induction os as [|o os IH] using rev_ind; intros CALM.
  - assert (forall al, ~ published [] al) as NP.
    { intros al (pre & suf & E & S). symmetry in E. apply app_eq_nil in E as [-> _]. destruct S as (e & m & X & _). discriminate. }
    constructor; [discriminate|intros al X; destruct (NP al X)|intros al al' X; destruct (NP al X)|intros m []].
  - apply cinv_step.
    + intros i n X. apply (CALM os [o] i n); auto.
    + apply IH. intros pre suf i n E. apply (CALM pre (suf ++ [o])). rewrite E, app_assoc. reflexivity.
Qed.

(** ** What follows *)
Lemma known_le os id inc : calm Cs os -> known (after Cs os) id inc -> exists n, own_inc (after Cs os) id n /\ inc <= n.
Proof.
  intros CALM K. pose proof (cinv_run os CALM) as H.
  assert (puba (published os) id inc -> exists n, own_inc (after Cs os) id n /\ inc <= n) as P.
  { intros (al & X & <- & <-). destruct (ci_le _ _ H al X) as (e & E & L). exists (k_inc (e_core e)). split; [exists e; auto|exact L]. }
  destruct K as [(i & e & m & E & G & <-)|(x & X & N)].
  - destruct (ci_node _ _ H i e E) as (I & W & K). destruct (N.eq_dec id i) as [->|NI].
    + destruct (ki_local _ _ (ei_core _ _ I)) as (m0 & G0 & (EI & _)). rewrite cfg_id in G0. unfold rec_at in G0. assert (m0 = m) by congruence. subst m0.
      exists (k_inc (e_core e)). split; [exists e; auto|lia].
    + apply P. apply (co_rec _ _ _ _ (eo_core _ _ _ _ K) id m G). rewrite cfg_id. exact NI.
  - apply P. apply (ci_net _ _ H x X), N.
Qed.
Lemma vouched_published os al : calm Cs os -> vouched (after Cs os) al -> published os al.
Proof.
  intros CALM K. pose proof (cinv_run os CALM) as H. destruct K as [(i & e & m & E & G & ST & EA)|(x & X & N)].
  - destruct (ci_node _ _ H i e E) as (I & W & K). pose proof (proj1 (ki_rec _ _ (ei_core _ _ I) _ m G)) as ID.
    destruct (N.eq_dec (al_id al) i) as [EI|NI].
    + destruct (co_own _ _ _ _ (eo_core _ _ _ _ K)) as (m0 & G0 & [[_ O]|O]); [|lia]. rewrite cfg_id in G0. rewrite EI in G. unfold rec_at in G0. assert (m0 = m) by congruence. subst m0.
      destruct (ki_local _ _ (ei_core _ _ I)) as (m1 & G1 & (MI & _)). rewrite cfg_id in G1. unfold rec_at in G1. assert (m1 = m) by congruence. subst m1.
      rewrite EA. rewrite <- MI in O. exact O.
    + rewrite EA. apply (co_rec _ _ _ _ (eo_core _ _ _ _ K) (al_id al) m G); [rewrite cfg_id; exact NI|exact ST].
  - apply (ci_net _ _ H x X), N.
Qed.
Lemma published_fun os al al' : calm Cs os -> published os al -> published os al' -> al_id al = al_id al' -> al_inc al = al_inc al' -> al = al'.
Proof. intros CALM. exact (ci_fun _ _ (cinv_run os CALM) al al'). Qed.
(** an own incarnation is published *)
Lemma own_published os pre suf id n : calm Cs os -> os = pre ++ suf -> own_inc (after Cs pre) id n ->
  exists al, published os al /\ al_id al = id /\ al_inc al = n.
Proof.
  intros CALM E (e & G & <-). assert (calm Cs pre) as CP by (intros p s i k X; apply (CALM p (s ++ suf)); rewrite E, X, app_assoc; reflexivity).
  destruct (ci_node _ _ (cinv_run pre CP) id e G) as (I & _). destruct (ki_local _ _ (ei_core _ _ I)) as (m & GM & _). rewrite cfg_id in GM.
  exists (mkAlive (k_inc (e_core e)) id (ns_addr (m_server m)) (ns_meta (m_server m)) (ns_pv (m_server m)) (ns_dv (m_server m))).
  split; [|split; reflexivity]. exists pre, suf. split; [exact E|]. exists e, m. auto.
Qed.

(** ** Checking that a concrete history is calm *)
Lemma started c os i e : cl_node (cl_run Cs c os) i = Some e -> cl_node c i <> None \/ exists t, In (CStart i t) os.
Proof.
  revert c. induction os as [|o os IH]; intros c H; [left; cbn in H; congruence|].
  change (cl_run Cs c (o :: os)) with (cl_run Cs (cl_step Cs c o) os) in H. apply IH in H as [H|(t & H)]; [|right; exists t; right; exact H].
  destruct o as [j t|j n f t|j n p s t|j n p s t|j n t|j eo].
  1:{ cbn [cl_step] in H. destruct (cl_node c j) eqn:X; [left; exact H|]. destruct (ep_new (Cs j) t); [|left; exact H].
      cbn in H. destruct (N.eqb_spec i j) as [->|]; [right; exists t; left; reflexivity|left; exact H]. }
  all: left; cbn [cl_step] in H; destruct (cl_call _ _) as [[k eo']|]; [|exact H]; destruct (cl_node c k) eqn:X; [|exact H];
    destruct (ep_step (Cs k) _ eo'); cbn in H; destruct (N.eqb_spec i k) as [->|]; [congruence|exact H].
Qed.
Definition calmb (ids : list N) (os : list clop) : bool :=
  forallb (fun o => match o with CStart i _ => existsb (N.eqb i) ids | _ => true end) os &&
  forallb (fun k => forallb (fun i => match cl_node (after Cs (firstn k os)) i with Some e => k_inc (e_core e) <? u32_max | None => true end) ids) (seq 0 (S (length os))).
Lemma calmb_calm ids os : calmb ids os = true -> calm Cs os.
Proof.
  intros H pre suf i n E (e & G & <-). apply andb_prop in H as [H1 H2]. rewrite forallb_forall in H1, H2.
  assert (In i ids) as II.
  { destruct (started _ _ _ _ G) as [X|(t & X)]; [cbn in X; congruence|]. specialize (H1 (CStart i t)). cbn in H1.
    assert (existsb (N.eqb i) ids = true) as Y by (apply H1; rewrite E; apply in_app_iff; auto).
    apply existsb_exists in Y as (j & J & Y). apply N.eqb_eq in Y as ->. exact J. }
  assert (In (length pre) (seq 0 (S (length os)))) as IL by (apply in_seq; rewrite E, app_length; lia).
  specialize (H2 _ IL). rewrite forallb_forall in H2. specialize (H2 i II). rewrite E, firstn_app, firstn_all, Nat.sub_diag, firstn_O, app_nil_r, G in H2.
  apply N.ltb_lt, H2.
Qed.
End Cluster.
