(** How one elementary step changes the record of one member. *)
From Coq Require Import Permutation.
From Verif Require Import CoreModel MapFacts BaseFacts DeadlineFacts MembersFacts LabelFacts CoreFacts CoreInv CoreSteps BroadcastInv BroadcastHist.
Local Open Scope N_scope.

Section Core.
Variable C : cfg.
Implicit Types (k : core) (m : member) (id : N).
Notation LID := (c_id C).
Notation kinv := (kinv C).
Notation kstep := (kstep C).
Notation ksteps := (ksteps C).
Notation kopt := (kopt C).

Inductive mtrans (o : cop) (now : N) k k' id : option member -> option member -> Prop :=
| t_same r : mtrans o now k k' id r r
| t_refute g accused m : id = LID -> origin C o now g -> accuses C g accused -> k_life k = Running -> m_inc m = k_inc k ->
    m_inc m <= accused -> m_state m = PAlive -> mtrans o now k k' id (Some m) (Some (m_set_inc (refuted_inc accused (m_inc m)) m))
| t_confirm m s s' inc from d : id <> LID -> origin C o now (GSuspect inc id from) -> k_life k = Running ->
    m_state m = PSuspect -> m_susp m = Some s -> m_inc m <= inc -> susp_confirm (c_lg C) s from now = (s', Accepted d) ->
    mtrans o now k k' id (Some m) (Some (m_set_susp (Some s') m))
| t_suspect m s inc from : id <> LID -> origin C o now (GSuspect inc id from) -> k_life k = Running ->
    m_state m = PAlive -> m_inc m <= inc ->
    mtrans o now k k' id (Some m) (Some (m_set_state PSuspect now (m_set_inc inc (m_set_susp (Some s) m))))
| t_dead m inc from : id <> LID -> origin C o now (GDead inc id from) -> k_life k = Running ->
    dead_or_left (m_state m) = false -> m_inc m <= inc ->
    mtrans o now k k' id (Some m) (Some (m_set_state (if id =? from then PLeft else PDead) now (m_set_inc inc (m_set_susp None m))))
| t_join al : id <> LID -> origin C o now (GAlive al) -> k_life k = Running -> id = al_id al -> k_adm k (alive_ns al PAlive) = true ->
    k_gen k' = k_gen (next_gen k) -> mtrans o now k k' id None (Some (mkM (alive_ns al PAlive) (al_inc al) now PAlive None (k_gen k)))
| t_alive al m (tk : bool) : id <> LID -> origin C o now (GAlive al) -> k_life k = Running -> id = al_id al -> k_adm k (alive_ns al PAlive) = true ->
    (if tk then
       ns_addr (m_server m) <> al_addr al /\
       (m_state m = PLeft \/ (m_state m = PDead /\ 0 < c_reclaim C /\ c_reclaim C < tsub now (m_change m)))
     else ns_addr (m_server m) = al_addr al /\ m_inc m < al_inc al) ->
    k_gen k' = (if tk then k_gen (next_gen k) else k_gen k) ->
    mtrans o now k k' id (Some m) (Some (mkM (alive_ns al PAlive) (al_inc al)
                   (if pstate_eqb (m_state m) PAlive then m_change m else now) PAlive None
                   (if tk then k_gen k else m_gen m)))
| t_meta m meta : id = LID -> o = KMeta meta -> k_life k = Running -> m_inc m = k_inc k -> m_state m = PAlive -> blen meta <= c_meta_max C ->
    mtrans o now k k' id (Some m) (Some (m_set_server (mkNS LID (c_addr C) PAlive meta (c_pv C) (c_dv C)) (m_set_inc (wadd32 (m_inc m) 1) m)))
| t_age m d : o = KAge id d -> mtrans o now k k' id (Some m) (Some (m_set_change (tsub (m_change m) d) m))
| t_prune m : o = KReset now -> id <> LID -> dead_or_left (m_state m) = true -> c_dead_window C < tsub now (m_change m) ->
    mtrans o now k k' id (Some m) None
| t_leave m : o = KLeave now -> id = LID -> k_life k = Running -> m_inc m = k_inc k -> m_state m = PAlive ->
    mtrans o now k k' id (Some m) (Some (m_set_state PLeft now (m_set_inc (k_inc k) (m_set_susp None m)))).

Lemma rec_reset now k id : kinv k -> rec_at (reset_members C now k) id = match rec_at k id with Some m => if kept C now (id, m) then Some m else None | None => None end.
Proof.
  intros V. destruct (reset_eq C now k V) as (d & ->). unfold rec_at. cbn.
  pose proof (nodup_filter (kept C now) _ (ki_nodup _ _ V)) as ND'.
  rewrite (perm_aget _ _ id (shuffle_perm _ _) ND'), aget_filter by exact (ki_nodup _ _ V). reflexivity.
Qed.
Lemma step_trans o now k k' id : kinv k -> kstep o now k k' -> mtrans o now k k' id (rec_at k id) (rec_at k' id).
Proof.
  intros V S. destruct (local_rec C k V) as (ml & GL & EIL & EIDL & ESL & EAL & NLv & EAdr).
  destruct S as [k g accused m Go GA R G I A|k i m s s' d inc from Go R G I SU SC|k i m inc from Go R G I A NL|k i m inc from Go R G I DL NL
    |k m al Go R AD G NA|k al off draws Go R AD G MX|k al m tk Go R AD G NL T|k h|k meta Eo R L|k i delta Eo|k Eo|k m Eo R G|k e|k e|k e r|k Q|k f|k n];
    try apply t_same.
  - assert (ml = m) by congruence. subst ml. cbn zeta. unfold rec_at at 2. cbn. rewrite aget_mt_upd.
    destruct (N.eqb_spec id LID) as [->|]; [|apply t_same]. fold (rec_at k LID). rewrite G. cbn. rewrite <- EIL.
    eapply t_refute; eauto.
  - unfold rec_at at 2. cbn. rewrite aget_mt_upd. destruct (N.eqb_spec id i) as [->|]; [|apply t_same]. fold (rec_at k i). rewrite G. cbn.
    assert (i <> LID) as NL by congruence.
    pose proof (ki_rec _ _ V _ _ G) as [_ ST].
    eapply t_confirm; eauto. destruct (m_state m); try congruence; contradiction.
  - cbn zeta. unfold rec_at at 2. cbn. rewrite aget_mt_upd. destruct (N.eqb_spec id i) as [->|]; [|apply t_same]. fold (rec_at k i). rewrite G. cbn.
    eapply t_suspect; eauto.
  - unfold rec_at at 2. cbn. rewrite aget_mt_upd. destruct (N.eqb_spec id i) as [->|]; [|apply t_same]. fold (rec_at k i). rewrite G. cbn.
    eapply t_dead; eauto.
  - unfold rec_at at 2. cbn. rewrite aget_mt_insert by (exact (ki_nodup _ _ V) || exact G).
    destruct (N.eqb_spec id (al_id al)) as [->|]; [|apply t_same]. rewrite G.
    apply t_join; auto. congruence.
  - cbn zeta. set (m1 := mkM _ _ _ _ _ _).
    match goal with |- mtrans _ _ _ _ _ _ (rec_at ?k1 _) => assert (k_gen k1 = (if tk then k_gen (next_gen k) else k_gen k)) as EG
      by (destruct tk; destruct (dead_or_left _); try destruct (negb _); reflexivity); assert (k_mem k1 = mt_upd (al_id al) (fun _ => m1) (k_mem k)) as E
      by (destruct tk; destruct (dead_or_left _); try destruct (negb _); reflexivity) end.
    unfold rec_at at 2. rewrite E, aget_mt_upd. destruct (N.eqb_spec id (al_id al)) as [->|]; [|apply t_same].
    fold (rec_at k (al_id al)). rewrite G. cbn. unfold m1. apply t_alive; auto.
  - cbn zeta. unfold rec_at at 2. cbn. rewrite aget_mt_upd. destruct (N.eqb_spec id LID) as [->|]; [|apply t_same].
    fold (rec_at k LID). rewrite GL. cbn. rewrite <- EIL. eapply t_meta; eauto.
  - unfold rec_at at 2. cbn. rewrite aget_mt_upd. destruct (N.eqb_spec id i) as [->|]; [|apply t_same]. fold (rec_at k i).
    destruct (rec_at k i) as [m|]; cbn; [eapply t_age; eauto|apply t_same].
  - rewrite rec_reset by exact V. destruct (rec_at k id) as [m|]; [|apply t_same].
    unfold kept, removable. cbn [fst snd]. destruct (N.eqb_spec id LID) as [|NL]; [apply t_same|].
    destruct (dead_or_left (m_state m)) eqn:DL; [|apply t_same]. cbn.
    destruct (N.ltb_spec (c_dead_window C) (tsub now (m_change m))); [|apply t_same]. apply t_prune; assumption.
  - assert (ml = m) by congruence. subst ml. unfold rec_at at 2. cbn. rewrite aget_mt_upd. destruct (N.eqb_spec id LID) as [->|]; [|apply t_same].
    fold (rec_at k LID). rewrite G. cbn. apply t_leave; auto.
Qed.
Lemma opt_trans o k id : kinv k -> match o with KMerge _ _ | KExpire _ => False | _ => True end ->
  mtrans o (op_now o) k (fst (core_step C k o)) id (rec_at k id) (rec_at (fst (core_step C k o)) id).
Proof.
  intros V NM. destruct (core_step_opt C k o V NM) as [E|S]; [rewrite E; apply t_same|exact (step_trans _ _ _ _ _ V S)].
Qed.

(** ** What the suspicion timer does *)
Definition due now m : bool := match m_susp m with Some s => s_deadline s <=? now | None => false end.
Definition killed now m : member := m_set_state PDead now (m_set_inc (m_inc m) (m_set_susp None m)).
Lemma in_expired now (t : mtable) id : NoDup (akeys t) -> (In id (expired_ids now t) <-> exists m, aget id t = Some m /\ due now m = true).
Proof.
  intros ND. unfold expired_ids. split.
  - intros H. apply in_map_iff in H. destruct H as ([i m] & <- & H). apply filter_In in H. destruct H as [H D]. exists m. split; [apply aget_of_in; assumption|exact D].
  - intros (m & G & D). apply in_map_iff. exists (id, m). split; [reflexivity|]. apply filter_In. split; [apply aget_in; exact G|exact D].
Qed.
Lemma expired_nodup now (t : mtable) : NoDup (akeys t) -> NoDup (expired_ids now t).
Proof. intros ND. exact (nodup_filter _ _ ND). Qed.
Lemma dead_kills inc id now k m : kinv k -> k_life k = Running -> rec_at k id = Some m -> m_inc m <= inc -> dead_or_left (m_state m) = false -> id <> LID ->
  process_dead C inc id LID now k = emit (EvLeft (m_server m)) (bcast C id (MDead inc id LID)
        (k_set_sidx (di_set id None (k_sidx k)) (upd id (fun m => m_set_state PDead now (m_set_inc inc (m_set_susp None m))) k))).
Proof.
  intros V R G I DL NL. unfold process_dead. unfold rec_at in G. rewrite G.
  destruct (N.ltb_spec inc (m_inc m)); [lia|]. rewrite DL. destruct (N.eqb_spec id LID); [contradiction|]. rewrite R. cbn [is_running negb].
  unfold clear_suspicion, upd. cbn [k_set_sidx k_set_mem k_mem]. rewrite mt_upd_upd. reflexivity.
Qed.

(** ** Runs as counted chains of steps *)
Inductive kchain (o : cop) (now : N) : nat -> core -> core -> Prop :=
| kc_refl k : kchain o now 0 k k
| kc_step n k1 k2 k3 : kstep o now k1 k2 -> kchain o now n k2 k3 -> kchain o now (S n) k1 k3.
(** The number of pieces of gossip, or other effects, in an operation *)
Definition work k (o : cop) : N := match o with KMerge l _ => blen l | KExpire _ => k_n k | _ => 1 end.
Fixpoint effort k (os : list cop) : N :=
  match os with [] => 0 | o :: r => work k o + effort (fst (core_step C k o)) r end.

Lemma chain_opt o now k k' : kopt o now k k' -> exists n, (n <= 1)%nat /\ kchain o now n k k'.
Proof.
  intros [->|S]; [exists 0%nat; split; [lia|apply kc_refl]|exists 1%nat; split; [lia|]]. eapply kc_step; [exact S|apply kc_refl].
Qed.
Lemma chain_trans o now n1 n2 k1 k2 k3 : kchain o now n1 k1 k2 -> kchain o now n2 k2 k3 -> kchain o now (n1 + n2) k1 k3.
Proof. intros S1 S2. induction S1 as [|n a b c S S' IH]; [exact S2|]. cbn. exact (kc_step _ _ _ _ _ _ S (IH S2)). Qed.
Lemma kinv_chain o now n k k' : kinv k -> kchain o now n k k' -> kinv k'.
Proof. intros V S. induction S as [|n k1 k2 k3 S1 S2 IH]; [exact V|]. apply IH. exact (kinv_step C o now k1 k2 V S1). Qed.
Lemma fold_chain {A} o now (f : core -> A -> core) : forall l k, kinv k ->
  (forall k a, In a l -> kinv k -> kopt o now k (f k a)) -> exists n, (n <= length l)%nat /\ kchain o now n k (fold_left f l k).
Proof.
  induction l as [|a l IH]; intros k V H; [exists 0%nat; split; [cbn; lia|apply kc_refl]|]. cbn [fold_left length].
  destruct (chain_opt o now k (f k a) (H k a (or_introl eq_refl) V)) as (n1 & L1 & S1).
  destruct (IH (f k a) (kinv_chain _ _ _ _ _ V S1) (fun k b Hb => H k b (or_intror Hb))) as (n2 & L2 & S2).
  exists (n1 + n2)%nat. split; [lia|]. exact (chain_trans _ _ _ _ _ _ _ S1 S2).
Qed.
Lemma filter_len_le {A} (f : A -> bool) l : (length (filter f l) <= length l)%nat.
Proof. induction l as [|a l IH]; cbn; [lia|]. destruct (f a); cbn; lia. Qed.
Lemma core_step_chain k o : kinv k -> exists n, N.of_nat n <= work k o /\ kchain o (op_now o) n k (fst (core_step C k o)).
Proof.
  intros V. destruct o as [| | |l now|now| | | | | | | | | | | | |];
    try (match goal with |- context [core_step C k ?o] =>
      destruct (chain_opt _ _ _ _ (core_step_opt C k o V I)) as (j & L & S); exists j; split; [cbn; lia|exact S] end).
  - destruct (fold_chain (KMerge l now) now (merge_one C now) l k V) as (n & L & S).
    { intros k0 p Hp V0. apply merge_one_step; [|exact V0]. cbn. eauto. }
    exists n. split; [cbn; unfold blen; lia|exact S].
  - cbn [core_step fst op_now]. unfold fire_expired_suspicions.
    destruct (fold_chain (KExpire now) now (fun k id => process_dead C match aget id (k_mem k) with Some m => m_inc m | None => 0 end id LID now k)
       (expired_ids now (k_mem k)) k V) as (n & L & S).
    { intros k0 i Hi V0. apply dead_steps; [|exact V0]. pose proof (expired_not_local C now k i V Hi). cbn; eauto 6. }
    exists n. split; [|exact S]. cbn. unfold k_n, blen. unfold expired_ids in L. rewrite map_length in L.
    pose proof (filter_len_le (fun p : N * member => match m_susp (snd p) with Some s => s_deadline s <=? now | None => false end) (k_mem k)). lia.
Qed.
Lemma run_ind (Q : cop -> Prop) (P : N -> core -> Prop) :
  (forall n n' k, n <= n' -> P n k -> P n' k) ->
  (forall n o now k k', Q o -> kinv k -> kstep o now k k' -> P n k -> P (n + 1) k') ->
  forall os k n, Forall Q os -> kinv k -> P n k -> P (n + effort k os) (fst (core_run C k os)).
Proof.
  intros HM HS.
  assert (forall o now j k k', Q o -> kchain o now j k k' -> forall n, kinv k -> P n k -> P (n + N.of_nat j) k') as HC.
  { intros o now j k k' Qo S. induction S as [|j k1 k2 k3 S1 S2 IH]; intros n V HP.
    - apply (HM n); [lia|exact HP].
    - apply (HM (n + 1 + N.of_nat j)); [lia|]. apply IH; [exact (kinv_step C o now k1 k2 V S1)|]. eapply HS; eauto. }
  induction os as [|o os IH]; intros k n F V HP; cbn [core_run effort].
  - apply (HM n); [lia|exact HP].
  - inversion F as [|? ? Qo F']; subst. destruct (core_step_chain k o V) as (j & L & S).
    pose proof (HC _ _ _ _ _ Qo S n V HP) as H1. apply (HM _ (n + work k o)) in H1; [|lia].
    pose proof (kinv_core_step C k o V) as V1. destruct (core_step C k o) as [k1 e1]. cbn [fst] in *.
    specialize (IH k1 _ F' V1 H1). destruct (core_run C k1 os) as [k2 e2]. cbn [fst] in *.
    rewrite N.add_assoc. exact IH.
Qed.

(** ** The broadcast queue *)
Definition queued (b : N * msg) k : Prop := In b (map i_b (bq_q (k_bc k))).
Definition enc_ok : Prop := forall x, blen (c_enc C x) <= u64_max.
Definition kq (n : N) k : Prop := n < u64_max -> wfq (mbcast C) (k_bc k) /\ ids (k_bc k) /\ bq_gen (k_bc k) <= n.
Lemma len_ok_mbcast : enc_ok -> len_ok (mbcast C).
Proof. intros E [i x]. exact (E x). Qed.
Lemma bcast_queued id x n k : kq n k -> n < u64_max -> queued (id, x) (bcast C id x k).
Proof.
  intros K L. destruct (K L) as (W & D & G). destruct (queue_summary (mbcast C) (id, x) (k_bc k) W D ltac:(lia)) as (_ & _ & _ & M).
  unfold queued, bcast. cbn. apply in_map_iff. eexists. split; [|apply M; left; reflexivity]. reflexivity.
Qed.
Lemma bcast_keeps id x n k i y : kq n k -> n < u64_max -> i <> id -> queued (i, y) k -> queued (i, y) (bcast C id x k).
Proof.
  intros K L NE Q. destruct (K L) as (W & D & G). destruct (queue_summary (mbcast C) (id, x) (k_bc k) W D ltac:(lia)) as (_ & _ & _ & M).
  unfold queued, bcast in *. cbn. apply in_map_iff in Q. destruct Q as (e & Ee & He). apply in_map_iff. exists e. split; [exact Ee|].
  apply M. right. split; [exact He|]. rewrite Ee. unfold superseded. cbn. apply N.eqb_neq. congruence.
Qed.
Lemma kq_ext n k k' : kq n k -> k_bc k' = k_bc k -> kq n k'.
Proof. unfold kq. intros H ->. exact H. Qed.
Lemma kq_le n n' k : n <= n' -> kq n k -> kq n' k.
Proof. unfold kq. intros L H L'. destruct (H ltac:(lia)) as (A & B & G). split; [exact A|]. split; [exact B|lia]. Qed.
Lemma kq_bstep n k k' b : enc_ok -> kq n k -> k_bc k' = fst (bq_step (mbcast C) (k_bc k) b) -> kq (n + 1) k'.
Proof.
  intros HE H E L. destruct (H ltac:(lia)) as (W & D & G). rewrite E.
  destruct (step_summary (mbcast C) (k_bc k) b (len_ok_mbcast HE) W D ltac:(lia)) as (D' & G' & _).
  split; [apply wfq_step; [apply len_ok_mbcast; exact HE|exact W]|]. split; [exact D'|lia].
Qed.
Lemma kq_bcast n k k' id x : enc_ok -> kq n k -> k_bc k' = k_bc (bcast C id x k) -> kq (n + 1) k'.
Proof. intros HE H E. exact (kq_bstep n k k' (OQueue (id, x)) HE H E). Qed.
Lemma kq_step n o now k k' : enc_ok -> kstep o now k k' -> kq n k -> kq (n + 1) k'.
Proof.
  intros HE S H.
  destruct S as [k g accused m Go GA R G I A|k i m s s' d inc from Go R G I SU SC|k i m inc from Go R G I A NL|k i m inc from Go R G I DL NL
    |k m al Go R AD G NA|k al off draws Go R AD G MX|k al m tk Go R AD G NL T|k h|k meta Eo R L|k i delta Eo|k Eo|k m Eo R G|k e|k e|k e r|k Q|k f|k n'];
    try (apply (kq_le n); [lia|]; apply (kq_ext n k); [exact H|reflexivity]);
    try (eapply kq_bcast; [exact HE|exact H|reflexivity]).
  - cbn zeta. eapply (kq_bcast n k _ (al_id al) (MAlive al)); [exact HE|exact H|].
    destruct tk; destruct (dead_or_left _); try destruct (negb _); reflexivity.
  - apply (kq_le n); [lia|]. apply (kq_ext n k); [exact H|]. unfold reset_members.
    set (ids := map fst _). generalize (fun i => c_rng C (k_draws k + N.of_nat i)). intros _.
    assert (forall l k0, k_bc (fold_left (fun k id => k_set_mem (adel id (k_mem k)) (k_set_sidx (di_set id None (k_sidx k)) k)) l k0) = k_bc k0) as E
      by (induction l as [|a l IH]; intros k0; cbn [fold_left]; [reflexivity|rewrite IH; reflexivity]).
    cbn. rewrite E. destruct ids; reflexivity.
  - eapply kq_bstep; [exact HE|exact H|]. cbn. reflexivity.
Qed.
Lemma kq_new t0 : enc_ok -> kq 1 (core_new C t0).
Proof.
  intros HE. apply (kq_bcast 0 (k_set_bc bq_new (core_new C t0)) _ (c_id C) (MAlive (alive_of (c_inc0 C) (mkNS (c_id C) (c_addr C) PAlive (c_meta0 C) (c_pv C) (c_dv C))))); [exact HE| |reflexivity].
  intros _. cbn. split; [apply wfq_new|]. split; [apply ids_new|lia].
Qed.
Lemma kq_run t0 os : enc_ok -> kq (1 + effort (core_new C t0) os) (fst (core_run C (core_new C t0) os)).
Proof.
  intros HE. apply (run_ind (fun _ => True) kq).
  - exact kq_le.
  - intros n o now k k' _ _ S H. exact (kq_step n o now k k' HE S H).
  - apply Forall_forall. auto.
  - apply kinv_new.
  - apply kq_new, HE.
Qed.
End Core.
