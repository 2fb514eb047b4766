(** Every operation of the core is a sequence of elementary steps. *)
From Coq Require Import Permutation.
From Verif Require Import CoreModel MapFacts BaseFacts DeadlineFacts MembersFacts LabelFacts CoreFacts CoreInv.
Local Open Scope N_scope.

Section Core.
Variable C : cfg.
Implicit Types (k : core) (m : member) (id : N).
Notation LID := (c_id C).
Notation kinv := (kinv C).
Notation kstep := (kstep C).
Notation ksteps := (ksteps C).

Lemma mt_upd_upd id f g t : mt_upd id f (mt_upd id g t) = mt_upd id (fun m => f (g m)) t.
Proof.
  unfold mt_upd. rewrite map_map. apply map_ext. intros [j m]. cbn. destruct (j =? id) eqn:E; cbn; rewrite E; reflexivity.
Qed.
Lemma mt_upd_none id f t : aget id t = None -> mt_upd id f t = t.
Proof.
  intros G. unfold mt_upd. rewrite <- (map_id t) at 2. apply map_ext_in. intros [j m] H. cbn.
  destruct (N.eqb_spec j id) as [->|]; [|reflexivity]. exfalso. apply aget_none in G. apply G.
  exact (in_map fst _ _ H).
Qed.
Lemma mt_upd_ext id f g t m : NoDup (akeys t) -> aget id t = Some m -> f m = g m -> mt_upd id f t = mt_upd id g t.
Proof.
  intros ND G E. unfold mt_upd. apply map_ext_in. intros [j n] H. cbn. destruct (N.eqb_spec j id) as [->|]; [|reflexivity].
  assert (n = m) as -> by (apply (aget_of_in _ _ _ ND) in H; congruence). rewrite E. reflexivity.
Qed.
Lemma mt_upd_insert off id f m t : aget id t = None -> mt_upd id f (mt_insert off id m t) = mt_insert off id (f m) t.
Proof.
  intros G.
  assert (forall l, incl l t -> mt_upd id f l = l) as K.
  { intros l I. unfold mt_upd. rewrite <- (map_id l) at 2. apply map_ext_in. intros [j n] H. cbn.
    destruct (N.eqb_spec j id) as [->|]; [|reflexivity]. exfalso. apply aget_none in G. apply G.
    exact (in_map fst _ _ (I _ H)). }
  pose proof (firstn_skipn (N.to_nat off) t) as E. fold (btake off t) in E. fold (bdrop off t) in E.
  unfold mt_insert. destruct (bdrop off t) as [|d r] eqn:Ed.
  - unfold mt_upd. rewrite map_app. cbn [map fst snd]. rewrite N.eqb_refl. fold (mt_upd id f t). rewrite (K t (incl_refl _)). reflexivity.
  - assert (mt_upd id f (btake off t) = btake off t) as E1 by (apply K; intros x Hx; rewrite <- E; apply in_or_app; left; exact Hx).
    assert (mt_upd id f (r ++ [d]) = r ++ [d]) as E2.
    { apply K. intros x Hx. rewrite <- E. apply in_or_app. right. apply in_app_or in Hx.
      destruct Hx as [Hx|[<-|[]]]; [right; exact Hx|left; reflexivity]. }
    unfold mt_upd in *. rewrite map_app. cbn [map fst snd]. rewrite N.eqb_refl, E1, E2. reflexivity.
Qed.
Lemma running_true l : is_running l = true -> l = Running.
Proof. destruct l; [reflexivity|discriminate..]. Qed.
Lemma m_set_susp_same m : m_susp m = None -> m_set_susp None m = m.
Proof. destruct m. cbn. intros ->. reflexivity. Qed.
Lemma clear_none k id m : kinv k -> rec_at k id = Some m -> m_susp m = None -> clear_suspicion id k = k.
Proof.
  intros V G S. unfold clear_suspicion. cbn. rewrite di_set_absent by exact (idx_absent C k id m V G S).
  unfold upd. rewrite (mt_upd_id id _ _ m (ki_nodup _ _ V) G (m_set_susp_same m S)). destruct k; reflexivity.
Qed.
Lemma local_rec k : kinv k -> exists m, rec_at k LID = Some m /\ m_inc m = k_inc k /\ ns_id (m_server m) = LID /\
  m_susp m = None /\ (k_life k = Running -> m_state m = PAlive) /\ k_life k <> Leaving /\ ns_addr (m_server m) = c_addr C.
Proof.
  intros V. destruct (ki_local _ _ V) as (m & G & EI & EA & EP & ED & LS). pose proof (ki_rec _ _ V _ _ G) as [EID ST].
  exists m. destruct LS as [[L A]|[L A]]; rewrite A in ST; repeat split; auto; congruence.
Qed.
Lemma ksteps_one o now k k' : kstep o now k k' -> ksteps o now k k'.
Proof. intros S. exact (ks_step _ _ _ _ _ _ S (ks_refl _ _ _ _)). Qed.
Lemma ksteps_trans o now k1 k2 k3 : ksteps o now k1 k2 -> ksteps o now k2 k3 -> ksteps o now k1 k3.
Proof. intros S1 S2. induction S1 as [|a b c S S' IH]; [exact S2|]. exact (ks_step _ _ _ _ _ _ S (IH S2)). Qed.

(** At most one elementary step *)
Definition kopt o now k k' : Prop := k' = k \/ kstep o now k k'.
Lemma ksteps_opt o now k k' : kopt o now k k' -> ksteps o now k k'.
Proof. intros [->|S]; [apply ks_refl|apply ksteps_one; exact S]. Qed.

Lemma refute_step o now k g accused m : origin C o now g -> accuses C g accused -> kinv k -> k_life k = Running -> rec_at k LID = Some m -> m_inc m <= accused ->
  kstep o now k (refute C accused k).
Proof.
  intros Go GA V R G I. destruct (local_rec k V) as (m0 & G0 & EI & EID & ES & EA & _). assert (m0 = m) by congruence. subst m0.
  pose proof (s_refute C o now k g accused m Go GA R G I (EA R)) as S. cbn zeta in S.
  replace (refute C accused k) with (bcast C LID (MAlive (alive_of (refuted_inc accused (k_inc k)) (m_server m)))
     (upd LID (m_set_inc (refuted_inc accused (k_inc k))) (k_set_inc (refuted_inc accused (k_inc k)) (health_fail 1 k)))); [exact S|].
  unfold refute. rewrite R. cbn [is_running]. cbn zeta.
  assert ((if k_inc (next_inc k) <=? accused then skip_past accused (next_inc k) else next_inc k)
    = k_set_inc (refuted_inc accused (k_inc k)) k) as ->
    by (unfold refuted_inc, skip_past, next_inc; cbn; destruct (wadd32 (k_inc k) 1 <=? accused) eqn:E; rewrite ?E; reflexivity).
  cbn. unfold rec_at in G. rewrite G, EID. reflexivity.
Qed.
Lemma suspect_steps o inc id from now k : origin C o now (GSuspect inc id from) -> kinv k -> kopt o now k (process_suspect C inc id from now k).
Proof.
  intros Go V. unfold process_suspect. destruct (is_running (k_life k)) eqn:R; [|left; reflexivity]. cbn [negb].
  assert (k_life k = Running) as R' by exact (running_true _ R).
  destruct (aget id (k_mem k)) as [m|] eqn:G; [|left; reflexivity].
  destruct (N.ltb_spec inc (m_inc m)) as [|I]; [left; reflexivity|].
  destruct (m_susp m) as [s|] eqn:S.
  - destruct (susp_confirm _ s from now) as [s' [d|]] eqn:SC; [|left; reflexivity].
    right. exact (s_confirm C o now k id m s s' d inc from Go R' G I S SC).
  - destruct (pstate_eqb_spec (m_state m) PAlive) as [A|]; [|left; reflexivity]. cbn [negb].
    destruct (N.eqb_spec id LID) as [->|NL]; [right; exact (refute_step o now k _ inc m Go (conj eq_refl eq_refl) V R' G I)|].
    right. pose proof (s_suspect C o now k id m inc from Go R' G I A NL) as ST. cbn zeta in ST.
    destruct (c_sto C (k_n k)) as [mn mx]. cbn [fst snd] in ST.
    unfold install_suspicion. rewrite G. unfold upd in *. cbn [k_set_sidx k_set_mem k_mem] in *. rewrite mt_upd_upd. exact ST.
Qed.
Lemma dead_steps o inc id from now k : origin C o now (GDead inc id from) -> kinv k -> kopt o now k (process_dead C inc id from now k).
Proof.
  intros Go V. unfold process_dead. destruct (aget id (k_mem k)) as [m|] eqn:G; [|left; reflexivity].
  destruct (N.ltb_spec inc (m_inc m)) as [|I]; [left; reflexivity|].
  destruct (dead_or_left (m_state m)) eqn:DL; [left; reflexivity|].
  destruct (local_rec k V) as (m0 & G0 & EI & EID & ES & EA & NLv & EAdr).
  destruct (N.eqb_spec id LID) as [->|NL].
  - destruct (k_life k) eqn:L; [|congruence|].
    + right. exact (refute_step o now k _ inc m Go (conj eq_refl eq_refl) V L G I).
    + unfold refute. rewrite L. left; reflexivity.
  - destruct (is_running (k_life k)) eqn:R; [|left; reflexivity]. cbn [negb].
    assert (k_life k = Running) as R' by exact (running_true _ R).
    right. pose proof (s_dead C o now k id m inc from Go R' G I DL NL) as ST.
    unfold clear_suspicion, upd in *. cbn [k_set_sidx k_set_mem k_mem] in *. rewrite mt_upd_upd. exact ST.
Qed.
Lemma alive_steps o al now k : origin C o now (GAlive al) -> kinv k -> kopt o now k (process_alive C al now k).
Proof.
  intros Go V. unfold process_alive. destruct (is_running (k_life k)) eqn:R; [|left; reflexivity]. cbn [negb].
  assert (k_life k = Running) as R' by exact (running_true _ R).
  destruct (k_adm k (alive_ns al PAlive)) eqn:AD; [|left; reflexivity].
  destruct (local_rec k V) as (m0 & G0 & EI & EID & ES & EA & NLv & EAdr).
  unfold alive_decided. destruct (aget (al_id al) (k_mem k)) as [m|] eqn:G.
  - assert (forall tk : bool, (if tk then ns_addr (m_server m) <> al_addr al /\
        (m_state m = PLeft \/ (m_state m = PDead /\ 0 < c_reclaim C /\ c_reclaim C < tsub now (m_change m)))
        else ns_addr (m_server m) = al_addr al) -> kopt o now k (alive_apply C al now tk false k)) as K.
    { intros tk T. unfold alive_apply. rewrite G. destruct (N.eqb_spec (al_id al) LID) as [EL|NL]; cbn [negb andb].
      - assert (m0 = m) by (unfold rec_at in G0; congruence). subst m0. rewrite EL.
        rewrite andb_false_r. cbn [andb]. destruct (N.ltb_spec (al_inc al) (m_inc m)) as [|I]; [left; reflexivity|].
        rewrite (clear_none k LID m V G0 ES).
        destruct (_ && _); [left; reflexivity|]. right.
        assert (al_addr al = c_addr C) as EAl.
        { destruct tk; [destruct T as [_ [T|[T _]]]; rewrite (EA R') in T; discriminate|congruence]. }
        exact (refute_step o now k (GAlive al) (al_inc al) m Go (conj EL (conj EAl eq_refl)) V R' G0 I).
      - assert (tk = true \/ m_inc m < al_inc al \/ al_inc al <= m_inc m /\ tk = false) as [Ht|[Ht|[Ht ->]]] by (destruct tk; lia).
        3: { destruct (N.leb_spec (al_inc al) (m_inc m)); [|lia]. left; reflexivity. }
        all: assert ((if tk then ns_addr (m_server m) <> al_addr al /\
           (m_state m = PLeft \/ (m_state m = PDead /\ 0 < c_reclaim C /\ c_reclaim C < tsub now (m_change m)))
           else ns_addr (m_server m) = al_addr al /\ m_inc m < al_inc al) \/ (tk = true /\ False)) as [T'|[_ []]]
           by (left; destruct tk; [exact T|split; [exact T|congruence||assumption]]).
        all: replace (negb tk && true && (al_inc al <=? m_inc m)) with false
           by (symmetry; destruct tk; cbn; [reflexivity|try (destruct (N.leb_spec (al_inc al) (m_inc m)); [lia|reflexivity]); discriminate]).
        all: right; pose proof (s_alive C o now k al m tk Go R' AD G NL T') as ST; cbn zeta in ST.
        all: set (F := fun m : member => _) in |- *.
        all: assert (mt_upd (al_id al) F (mt_upd (al_id al) (m_set_susp None) (k_mem k)) =
              mt_upd (al_id al) (fun _ => mkM (alive_ns al PAlive) (al_inc al)
                   (if pstate_eqb (m_state m) PAlive then m_change m else now) PAlive None
                   (if tk then k_gen k else m_gen m)) (k_mem k)) as EU
           by (rewrite mt_upd_upd; apply (mt_upd_ext _ _ _ _ m (ki_nodup _ _ V) G); clear; destruct m as [a1 a2 a3 a4 a5 a6]; unfold F; destruct tk; cbn;
               destruct a4; reflexivity).
        all: destruct tk; cbn [k_gen k_set_sidx clear_suspicion upd k_set_mem] in *;
          unfold clear_suspicion, upd, next_gen, bcast in *; cbn [k_set_sidx k_set_mem k_mem k_set_gen k_gen k_sidx k_bc k_set_bc] in *;
          rewrite EU; exact ST. }
    destruct (N.eqb_spec (ns_addr (m_server m)) (al_addr al)) as [EAd|NAd]; [apply K; exact EAd|].
    destruct (m_state m) eqn:ST.
    1, 2, 5: right; exact (s_conflict C o now k m al Go R' AD G NAd).
    + destruct (N.ltb_spec 0 (c_reclaim C)); cbn [andb];
        [|right; exact (s_conflict C o now k m al Go R' AD G NAd)].
      destruct (N.ltb_spec (c_reclaim C) (tsub now (m_change m)));
        [|right; exact (s_conflict C o now k m al Go R' AD G NAd)].
      apply K. split; [exact NAd|]. right. repeat split; assumption.
    + apply K. split; [exact NAd|]. left. reflexivity.
  - destruct (match c_max_members C with Some mx => mx <=? k_n k | None => false end) eqn:MX; [left; reflexivity|].
    assert (match c_max_members C with Some mx => k_n k < mx | None => True end) as MX'
      by (destruct (c_max_members C); [destruct (N.leb_spec n (k_n k)); [discriminate|lia]|exact I]).
    set (m := mkM _ _ _ _ _ _).
    assert (forall off d, kopt o now k (alive_apply C al now false true
        (k_set_mem (mt_insert off (al_id al) m (k_mem k)) (k_set_draws d (next_gen k))))) as K.
    { intros off d. unfold alive_apply. cbn [k_set_mem k_mem]. rewrite aget_mt_insert by (exact (ki_nodup _ _ V) || exact G).
      rewrite N.eqb_refl. destruct (N.eqb_spec (al_id al) LID) as [EL|NL]; [unfold rec_at in G0; congruence|]. cbn [negb andb].
      right. pose proof (s_join C o now k al off d Go R' AD G MX') as ST.
      unfold m in *. cbn [m_state dead_or_left]. unfold clear_suspicion, upd, bcast in *.
      cbn [k_set_mem k_set_sidx k_mem k_sidx k_set_draws next_gen k_set_gen k_gen k_bc k_set_bc] in *.
      rewrite !mt_upd_insert by exact G. cbn [m_set_susp m_set_inc m_set_server m_state m_set_state m_server m_inc m_change m_susp m_gen pstate_eqb] in *.
      rewrite di_set_absent; [exact ST|]. pose proof (ki_idx _ _ V (al_id al)) as E. unfold rec_at in E. rewrite G in E. cbn in E.
      destruct (aget (al_id al) (di_cur (k_sidx k))); [discriminate|reflexivity]. }
    destruct (k_n (next_gen k) =? 0); [|apply K].
    pose proof (K 0 (k_draws k)) as K0. exact K0.
Qed.
Lemma merge_one_step o p now k : (forall g, heard C p = Some g -> origin C o now g) -> kinv k -> kopt o now k (merge_one C now k p).
Proof.
  intros H V. unfold merge_one, heard in *.
  destruct (pn_state p); [apply alive_steps|apply suspect_steps|apply suspect_steps|apply dead_steps|left; reflexivity]; auto.
Qed.
Lemma merge_steps o l now k : (forall p g, In p l -> heard C p = Some g -> origin C o now g) -> kinv k -> ksteps o now k (merge_state C l now k).
Proof.
  revert k. induction l as [|p l IH]; intros k H V; [apply ks_refl|].
  unfold merge_state in *. cbn [fold_left].
  assert (ksteps o now k (merge_one C now k p)) as S1.
  { apply ksteps_opt, merge_one_step; [|exact V]. intros g. apply H. left. reflexivity. }
  apply (ksteps_trans _ _ _ _ _ S1). apply IH; [|exact (kinv_steps _ _ _ _ _ V S1)]. intros q g Hq. apply H. right. exact Hq.
Qed.
Lemma expired_not_local now k i : kinv k -> In i (expired_ids now (k_mem k)) -> i <> LID.
Proof.
  intros V H ->. destruct (local_rec k V) as (m & G & _ & _ & ES & _). unfold expired_ids in H. apply in_map_iff in H.
  destruct H as ([j n] & E & H). cbn in E. subst j. apply filter_In in H. destruct H as [H D].
  apply (aget_of_in _ _ _ (ki_nodup _ _ V)) in H. unfold rec_at in G. rewrite G in H. injection H as <-. cbn in D. rewrite ES in D. discriminate.
Qed.
Lemma expire_steps now k : kinv k -> ksteps (KExpire now) now k (fire_expired_suspicions C now k).
Proof.
  intros V. unfold fire_expired_suspicions. pose proof (fun i => expired_not_local now k i V) as NL. revert NL V. generalize (expired_ids now (k_mem k)). intros ids. revert k.
  induction ids as [|i ids IH]; intros k NL V; cbn [fold_left]; [apply ks_refl|].
  assert (ksteps (KExpire now) now k (process_dead C match aget i (k_mem k) with Some m => m_inc m | None => 0 end i LID now k)) as S1
    by (apply ksteps_opt, dead_steps; [cbn; split; [reflexivity|]; do 2 eexists; split; [reflexivity|]; apply NL; left; reflexivity|assumption]).
  apply (ksteps_trans _ _ _ _ _ S1). apply IH; [|exact (kinv_steps _ _ _ _ _ V S1)]. intros j Hj. apply NL. right. exact Hj.
Qed.
Lemma leave_step now k : kinv k -> k_life k = Running -> kstep (KLeave now) now k (core_leave C now k).
Proof.
  intros V R. destruct (local_rec k V) as (m & G & EI & EID & ES & EA & _).
  pose proof (s_leave C (KLeave now) now k m eq_refl R G) as ST.
  unfold core_leave. rewrite R. cbn [is_running negb k_set_ev k_set_life k_mem k_inc]. unfold rec_at in G. rewrite G, EI, N.max_id.
  unfold process_dead. cbn [k_mem k_set_ev k_set_life]. rewrite G. rewrite EI, N.ltb_irrefl, (EA R). cbn [dead_or_left]. rewrite N.eqb_refl.
  cbn [k_life]. unfold clear_suspicion, upd, bcast in *. cbn [k_set_mem k_set_sidx k_mem k_sidx k_set_ev k_set_life] in *. rewrite mt_upd_upd. exact ST.
Qed.

(** The time of an operation *)
Definition op_now (o : cop) : N :=
  match o with
  | KAlive _ t | KSuspect _ _ _ t | KDead _ _ _ t | KMerge _ t | KExpire t | KReset t | KLeave t => t
  | _ => 0
  end.
(** Operations other than merges and the suspicion timer are at most one step *)
Lemma core_step_opt k o : kinv k -> match o with KMerge _ _ | KExpire _ => False | _ => True end ->
  kopt o (op_now o) k (fst (core_step C k o)).
Proof.
  intros V NM. destruct o; try contradiction; cbn [core_step fst op_now].
  - apply alive_steps; [split; reflexivity|exact V].
  - apply suspect_steps; [split; reflexivity|exact V].
  - apply dead_steps; [split; reflexivity|exact V].
  - right. exact (s_health C _ _ k (Failure sev) eq_refl).
  - right. exact (s_health C _ _ k Success eq_refl).
  - unfold update_meta. destruct (is_running (k_life k)) eqn:R; [|left; reflexivity].
    assert (k_life k = Running) as R' by exact (running_true _ R). cbn [negb].
    destruct (N.ltb_spec (c_meta_max C) (blen meta)) as [|L]; [left; reflexivity|]. cbn [snd].
    right. exact (s_meta C _ _ k meta eq_refl R' L).
  - right. exact (s_age C _ _ k id delta eq_refl).
  - right. exact (s_reset C _ _ k eq_refl).
  - destruct (k_life k) eqn:R; [right; apply leave_step; assumption| |]; unfold core_leave; rewrite R; left; reflexivity.
  - destruct (quiet e) eqn:Q; [|left; reflexivity]. right. exact (s_emit C _ _ k e eq_refl Q).
  - destruct (_ && _); [left; reflexivity|]. right. exact (s_requeue C _ _ k e eq_refl).
  - destruct (k_ev k) as [|e r] eqn:E; [left; reflexivity|]. right. exact (s_poll C _ _ k e r eq_refl E).
  - right. pose proof (s_take C (KTake overhead limit) 0 k (OTake (c_lim C (k_n k)) overhead limit) ltac:(repeat split)) as ST.
    unfold bq_step in ST. destruct (take_broadcasts_measured _ _ _ _ _) as [[Q l] u]. exact ST.
  - right. pose proof (s_take C (KTakeOne limit) 0 k (OTakeOne (c_lim C (k_n k)) limit) ltac:(repeat split)) as ST.
    unfold bq_step in ST. destruct (take_one_broadcast _ _ _ _) as [Q l]. exact ST.
  - right. exact (s_admit C _ _ k f eq_refl).
  - right. exact (s_draws C _ _ k n eq_refl).
Qed.
Lemma core_step_steps k o : kinv k -> ksteps o (op_now o) k (fst (core_step C k o)).
Proof.
  intros V. destruct o as [| | |l now|now| | | | | | | | | | | | |]; try (apply ksteps_opt, core_step_opt; [exact V|exact I]); cbn [core_step fst op_now].
  - apply merge_steps; [|exact V]. cbn. eauto.
  - apply expire_steps; exact V.
Qed.
Lemma kinv_core_step k o : kinv k -> kinv (fst (core_step C k o)).
Proof. intros V. exact (kinv_steps _ _ _ _ _ V (core_step_steps k o V)). Qed.
Lemma core_run_fst k os : fst (core_run C k os) = fold_left (fun k o => fst (core_step C k o)) os k.
Proof.
  revert k. induction os as [|o os IH]; intros k; [reflexivity|]. cbn [core_run fold_left].
  destruct (core_step C k o) as [k1 e1]. cbn [fst]. rewrite <- IH. destruct (core_run C k1 os). reflexivity.
Qed.
Lemma kinv_run os : forall k, kinv k -> kinv (fst (core_run C k os)).
Proof.
  induction os as [|o os IH]; intros k V; [exact V|]. cbn [core_run].
  pose proof (kinv_core_step k o V) as V1. destruct (core_step C k o) as [k1 e1]. specialize (IH k1 V1).
  destruct (core_run C k1 os). exact IH.
Qed.
End Core.
