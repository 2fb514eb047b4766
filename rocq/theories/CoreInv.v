(** The elementary steps of the membership core and its invariant. *)
From Coq Require Import Permutation.
From Verif Require Import CoreModel MapFacts BaseFacts DeadlineFacts MembersFacts LabelFacts CoreFacts.
Local Open Scope N_scope.

Section Core.
Variable C : cfg.
Implicit Types (k : core) (m : member) (id : N).
Notation LID := (c_id C).

(** Liveness recorded for an id, and the deadline of its suspicion *)
Definition rec_at k id : option member := aget id (k_mem k).
Definition susp_dl (o : option member) : option N :=
  match o with Some m => option_map s_deadline (m_susp m) | None => None end.

Definition rec_ok id m : Prop :=
  ns_id (m_server m) = id /\
  match m_state m with PSuspect => m_susp m <> None | PUnknown _ => False | _ => m_susp m = None end.
Definition local_ok k m : Prop :=
  m_inc m = k_inc k /\ ns_addr (m_server m) = c_addr C /\ ns_pv (m_server m) = c_pv C /\ ns_dv (m_server m) = c_dv C /\
  ((k_life k = Running /\ m_state m = PAlive) \/ (k_life k = LeftLife /\ m_state m = PLeft)).
Record kinv k : Prop := {
  ki_nodup : NoDup (akeys (k_mem k));
  ki_didx : dinv (k_sidx k);
  ki_idx : forall id, option_map fst (aget id (di_cur (k_sidx k))) = susp_dl (rec_at k id);
  ki_rec : forall id m, rec_at k id = Some m -> rec_ok id m;
  ki_local : exists m, rec_at k LID = Some m /\ local_ok k m }.

(** What refuting does *)
Definition refuted_inc (accused : N) (i : N) : N :=
  let n := wadd32 i 1 in if n <=? accused then wadd32 accused 1 else n.

(** A single piece of gossip, and those an operation consists of *)
Inductive gossip := GAlive (al : alive) | GSuspect (inc id from : N) | GDead (inc id from : N).
Definition heard (p : pns) : option gossip :=
  match pn_state p with
  | PAlive => Some (GAlive (pns_alive p))
  | PLeft => Some (GDead (pn_inc p) (pn_id p) LID)
  | PDead | PSuspect => Some (GSuspect (pn_inc p) (pn_id p) LID)
  | PUnknown _ => None
  end.
Definition origin (o : cop) (now : N) (g : gossip) : Prop :=
  match o with
  | KAlive al t => t = now /\ g = GAlive al
  | KSuspect inc id from t => t = now /\ g = GSuspect inc id from
  | KDead inc id from t => t = now /\ g = GDead inc id from
  | KMerge l t => t = now /\ exists p, In p l /\ heard p = Some g
  | KExpire t => t = now /\ exists inc id, g = GDead inc id LID /\ id <> LID
  | _ => False
  end.
Definition accuses (g : gossip) (accused : N) : Prop :=
  match g with
  | GAlive al => al_id al = LID /\ al_addr al = c_addr C /\ al_inc al = accused
  | GSuspect inc id _ | GDead inc id _ => id = LID /\ inc = accused
  end.
(** Elementary steps of operation [o], at time [now] *)
Inductive kstep (o : cop) (now : N) : core -> core -> Prop :=
| s_refute k g accused m :
    origin o now g -> accuses g accused -> k_life k = Running -> rec_at k LID = Some m -> m_inc m <= accused -> m_state m = PAlive ->
    kstep o now k
      (let i := refuted_inc accused (k_inc k) in
       bcast C LID (MAlive (alive_of i (m_server m)))
         (upd LID (m_set_inc i) (k_set_inc i (health_fail 1 k))))
| s_confirm k id m s s' d inc from :
    origin o now (GSuspect inc id from) -> k_life k = Running -> rec_at k id = Some m -> m_inc m <= inc -> m_susp m = Some s ->
    susp_confirm (c_lg C) s from now = (s', Accepted d) ->
    kstep o now k (bcast C id (MSuspect inc id from)
          (k_set_sidx (di_set id (Some d) (k_sidx k)) (upd id (m_set_susp (Some s')) k)))
| s_suspect k id m inc from :
    origin o now (GSuspect inc id from) -> k_life k = Running -> rec_at k id = Some m -> m_inc m <= inc -> m_state m = PAlive -> id <> LID ->
    kstep o now k
      (let s := susp_new from (if c_mult C <=? k_n k mod two32 then c_mult C - 2 else 0)
                  (fst (c_sto C (k_n k))) (snd (c_sto C (k_n k))) now in
       bcast C id (MSuspect inc id from)
         (bumpv (k_set_sidx (di_set id (Some (s_deadline s)) (k_sidx k))
           (upd id (fun m => m_set_state PSuspect now (m_set_inc inc (m_set_susp (Some s) m))) k))))
| s_dead k id m inc from :
    origin o now (GDead inc id from) -> k_life k = Running -> rec_at k id = Some m -> m_inc m <= inc -> dead_or_left (m_state m) = false -> id <> LID ->
    kstep o now k
      (emit (EvLeft (m_server m)) (bcast C id (MDead inc id from)
        (k_set_sidx (di_set id None (k_sidx k))
          (upd id (fun m => m_set_state (if id =? from then PLeft else PDead) now (m_set_inc inc (m_set_susp None m))) k))))
| s_conflict k m al :
    origin o now (GAlive al) -> k_life k = Running -> k_adm k (alive_ns al PAlive) = true ->
    rec_at k (al_id al) = Some m -> ns_addr (m_server m) <> al_addr al ->
    kstep o now k (emit (EvConflict (m_server m) (alive_ns al PAlive)) k)
| s_join k al off draws :
    origin o now (GAlive al) -> k_life k = Running -> k_adm k (alive_ns al PAlive) = true ->
    rec_at k (al_id al) = None ->
    match c_max_members C with Some mx => k_n k < mx | None => True end ->
    kstep o now k
      (emit (EvJoined (alive_ns al PAlive)) (bcast C (al_id al) (MAlive al)
        (k_set_mem (mt_insert off (al_id al) (mkM (alive_ns al PAlive) (al_inc al) now PAlive None (k_gen k)) (k_mem k))
          (k_set_draws draws (next_gen k)))))
| s_alive k al m (takeover : bool) :
    origin o now (GAlive al) -> k_life k = Running -> k_adm k (alive_ns al PAlive) = true ->
    rec_at k (al_id al) = Some m -> al_id al <> LID ->
    (if takeover then
       ns_addr (m_server m) <> al_addr al /\
       (m_state m = PLeft \/ (m_state m = PDead /\ 0 < c_reclaim C /\ c_reclaim C < tsub now (m_change m)))
     else ns_addr (m_server m) = al_addr al /\ m_inc m < al_inc al) ->
    kstep o now k
      (let k1 := if takeover then next_gen k else k in
       let m1 := mkM (alive_ns al PAlive) (al_inc al)
                   (if pstate_eqb (m_state m) PAlive then m_change m else now) PAlive None
                   (if takeover then k_gen k else m_gen m) in
       let k2 := bcast C (al_id al) (MAlive al)
                   (k_set_sidx (di_set (al_id al) None (k_sidx k)) (upd (al_id al) (fun _ => m1) k1)) in
       if dead_or_left (m_state m) then emit (EvJoined (alive_ns al PAlive)) k2
       else if negb (bytes_eqb (ns_meta (m_server m)) (al_meta al)) then emit (EvUpdated (alive_ns al PAlive)) k2
       else bumpv k2)
| s_health k h :
    o = match h with Success => KHealthOk | Failure sev => KHealthFail sev end -> kstep o now k (bumpv (k_set_aw (aw_step (k_aw k) h) k))
| s_meta k meta :
    o = KMeta meta -> k_life k = Running -> blen meta <= c_meta_max C ->
    kstep o now k
      (let i := wadd32 (k_inc k) 1 in
       let s := mkNS LID (c_addr C) PAlive meta (c_pv C) (c_dv C) in
       emit (EvUpdated s) (bcast C LID (MAlive (alive_of i s))
         (upd LID (fun m => m_set_server s (m_set_inc i m)) (k_set_inc i k))))
| s_age k id delta : o = KAge id delta -> kstep o now k (age_member id delta k)
| s_reset k : o = KReset now -> kstep o now k (reset_members C now k)
| s_leave k m :
    o = KLeave now -> k_life k = Running -> rec_at k LID = Some m ->
    kstep o now k
      (k_set_life LeftLife (emit (EvLeft (m_server m)) (bcast C LID (MDead (k_inc k) LID LID)
         (k_set_sidx (di_set LID None (k_sidx k))
           (upd LID (fun m => m_set_state PLeft now (m_set_inc (k_inc k) (m_set_susp None m)))
             (k_set_ev (filter (fun e => negb (is_dial e)) (k_ev k)) k))))))
| s_emit k e : o = KEmit e -> quiet e = true -> kstep o now k (k_set_ev (k_ev k ++ [e]) k)
| s_requeue k e : o = KRequeue e -> kstep o now k (k_set_ev (k_ev k ++ [e]) k)
| s_poll k e r : o = KPoll -> k_ev k = e :: r -> kstep o now k (k_set_ev r k)
| s_take k t :
    match o, t with
    | KTake ov limit, OTake lim ov' limit' => lim = c_lim C (k_n k) /\ ov' = ov /\ limit' = limit
    | KTakeOne limit, OTakeOne lim limit' => lim = c_lim C (k_n k) /\ limit' = limit
    | _, _ => False
    end ->
    kstep o now k (k_set_bc (fst (bq_step (mbcast C) (k_bc k) t)) k)
| s_admit k f : o = KAdmit f -> kstep o now k (k_set_adm f k)
| s_draws k n : o = KDraws n -> kstep o now k (k_set_draws (k_draws k + n) k).

Inductive ksteps (o : cop) (now : N) : core -> core -> Prop :=
| ks_refl k : ksteps o now k k
| ks_step k1 k2 k3 : kstep o now k1 k2 -> ksteps o now k2 k3 -> ksteps o now k1 k3.

(** ** The invariant is preserved *)
Lemma aget_upd id f k j : aget j (k_mem (upd id f k)) = if j =? id then option_map f (rec_at k j) else rec_at k j.
Proof. apply aget_mt_upd. Qed.

Lemma kinv_upd k k' id f (o : option N) m :
  kinv k -> rec_at k id = Some m -> k_mem k' = mt_upd id f (k_mem k) ->
  k_sidx k' = di_set id o (k_sidx k) -> o = option_map s_deadline (m_susp (f m)) ->
  rec_ok id (f m) -> (exists m', rec_at k' LID = Some m' /\ local_ok k' m') -> kinv k'.
Proof.
  intros [ND DI IX RC LO] G EM ES Eo OK LO'. constructor.
  - rewrite EM, akeys_mt_upd. exact ND.
  - rewrite ES. apply dinv_set, DI.
  - intros j. rewrite ES, (set_cur _ _ _ _ DI). unfold rec_at. rewrite EM, aget_mt_upd.
    destruct (N.eqb_spec j id) as [->|Hj]; [|apply IX]. unfold rec_at in G. rewrite G. exact Eo.
  - intros j n. unfold rec_at. rewrite EM, aget_mt_upd. destruct (N.eqb_spec j id) as [->|Hj]; [|apply RC].
    unfold rec_at in G. rewrite G. intros [= <-]. exact OK.
  - exact LO'.
Qed.

Lemma kinv_ext k k' : kinv k -> k_mem k' = k_mem k -> k_sidx k' = k_sidx k -> k_inc k' = k_inc k -> k_life k' = k_life k -> kinv k'.
Proof.
  intros [ND DI IX RC LO] EM ES EI EL. constructor; unfold rec_at, local_ok in *; rewrite ?EM, ?ES, ?EI, ?EL; assumption.
Qed.
Lemma local_other k k' id f : kinv k -> k_mem k' = mt_upd id f (k_mem k) -> id <> LID ->
  k_inc k' = k_inc k -> k_life k' = k_life k -> exists m', rec_at k' LID = Some m' /\ local_ok k' m'.
Proof.
  intros [_ _ _ _ (m & G & L)] EM Hn EI EL. exists m. unfold rec_at, local_ok in *. rewrite EM, EI, EL, aget_mt_upd.
  destruct (N.eqb_spec LID id); [congruence|]. split; assumption.
Qed.
Lemma di_set_absent id D : aget id (di_cur D) = None -> di_set id None D = D.
Proof. intros H. unfold di_set. rewrite H. reflexivity. Qed.
Lemma idx_absent k id m : kinv k -> rec_at k id = Some m -> m_susp m = None -> aget id (di_cur (k_sidx k)) = None.
Proof.
  intros V G S. pose proof (ki_idx _ V id) as E. rewrite G in E. cbn in E. rewrite S in E.
  destruct (aget id _); [discriminate|reflexivity].
Qed.

(** What [reset_members] leaves *)
Lemma adel_filter {A} id (t : amap A) : adel id t = filter (fun p => negb (fst p =? id)) t.
Proof.
  induction t as [|[j a] t IH]; cbn; [reflexivity|]. rewrite N.eqb_sym. destruct (j =? id); cbn; [exact IH|f_equal; exact IH].
Qed.
Lemma fold_adel {A} ids (t : amap A) :
  fold_left (fun t id => adel id t) ids t = filter (fun p => negb (existsb (N.eqb (fst p)) ids)) t.
Proof.
  revert t. induction ids as [|i ids IH]; intros t; cbn [fold_left existsb].
  - induction t as [|x t IHt]; [reflexivity|]. cbn. f_equal. exact IHt.
  - rewrite IH, adel_filter. induction t as [|x t IHt]; [reflexivity|]. cbn.
    destruct (fst x =? i); cbn; [exact IHt|]. destruct (existsb (N.eqb (fst x)) ids); cbn; [exact IHt|f_equal; exact IHt].
Qed.
Lemma filter_drop {A} (P : N * A -> bool) (t : amap A) : NoDup (akeys t) ->
  filter (fun p => negb (existsb (N.eqb (fst p)) (map fst (filter P t)))) t = filter (fun p => negb (P p)) t.
Proof.
  intros ND. apply filter_ext_in. intros x Hx. f_equal. destruct (P x) eqn:E.
  - apply existsb_exists. exists (fst x). split; [|apply N.eqb_refl]. apply in_map, filter_In. auto.
  - destruct (existsb _ _) eqn:E2; [|reflexivity]. apply existsb_exists in E2. destruct E2 as (j & Hj & Ej).
    apply N.eqb_eq in Ej. subst j. apply in_map_iff in Hj. destruct Hj as (y & Ey & Hy). apply filter_In in Hy.
    destruct Hy as [Hy Py]. destruct x as [i a], y as [i' b]. cbn in Ey. subst i'.
    apply (aget_of_in _ _ _ ND) in Hx. apply (aget_of_in _ _ _ ND) in Hy. congruence.
Qed.
Lemma aget_filter {A} (P : N * A -> bool) (t : amap A) id : NoDup (akeys t) ->
  aget id (filter P t) = match aget id t with Some a => if P (id, a) then Some a else None | None => None end.
Proof.
  induction t as [|[j a] t IH]; intros ND; cbn [filter aget]; [reflexivity|].
  inversion ND as [|? ? N1 ND']; subst.
  destruct (P (j, a)) eqn:E; cbn [aget].
  - destruct (N.eqb_spec id j) as [Hj|Hj]; [subst j; rewrite E; reflexivity|auto].
  - destruct (N.eqb_spec id j) as [Hj|Hj]; [|auto]. subst j. rewrite E, (IH ND').
    destruct (aget id t) eqn:G; [|reflexivity]. exfalso. apply aget_some_key in G. exact (N1 G).
Qed.
Lemma nodup_filter {A} (P : N * A -> bool) (t : amap A) : NoDup (akeys t) -> NoDup (akeys (filter P t)).
Proof.
  induction t as [|x t IH]; cbn; [auto|]. intros H. inversion H as [|? ? N1 ND]; subst.
  destruct (P x); cbn; [constructor; [|auto]|auto]. intros Hx. apply N1. unfold akeys in *.
  apply in_map_iff in Hx. destruct Hx as (y & <- & Hy). apply filter_In in Hy. apply in_map, Hy.
Qed.
Definition kept now (p : N * member) : bool := negb (removable C now p).
Lemma reset_loop ids : forall k, kinv k -> (forall id, In id ids -> aget id (di_cur (k_sidx k)) = None) ->
  let k' := fold_left (fun k id => k_set_mem (adel id (k_mem k)) (k_set_sidx (di_set id None (k_sidx k)) k)) ids k in
  k' = k_set_mem (fold_left (fun t id => adel id t) ids (k_mem k)) k.
Proof.
  intros k V H. assert (forall t, fold_left (fun k id => k_set_mem (adel id (k_mem k)) (k_set_sidx (di_set id None (k_sidx k)) k)) ids (k_set_mem t k)
     = k_set_mem (fold_left (fun t id => adel id t) ids t) k) as G.
  { clear V. induction ids as [|i ids IH]; intros t; cbn [fold_left]; [reflexivity|].
    cbn [k_set_mem k_set_sidx k_mem k_sidx]. rewrite di_set_absent by (apply H; left; reflexivity).
    rewrite <- IH by (intros id Hid; apply H; right; exact Hid). reflexivity. }
  cbn zeta. rewrite <- G. destruct k; reflexivity.
Qed.
Lemma reset_eq now k : kinv k -> exists d,
  reset_members C now k =
  k_set_mem (shuffle (fun i => c_rng C (k_draws k + N.of_nat i)) (filter (kept now) (k_mem k)))
    (k_set_draws d (if existsb (removable C now) (k_mem k) then bumpv k else k)).
Proof.
  intros V. unfold reset_members.
  set (ids := map fst (filter (removable C now) (k_mem k))).
  assert (match ids with [] => k | _ => bumpv k end = if existsb (removable C now) (k_mem k) then bumpv k else k) as E0.
  { unfold ids. clear. induction (k_mem k) as [|x t IH]; [reflexivity|]. cbn.
    destruct (removable C now x) eqn:E; [reflexivity|exact IH]. }
  rewrite E0. set (k0 := if existsb _ _ then bumpv k else k).
  assert (k_mem k0 = k_mem k /\ k_sidx k0 = k_sidx k /\ k_inc k0 = k_inc k /\ k_life k0 = k_life k /\ k_draws k0 = k_draws k) as (M0 & S0 & I0 & L0 & D0)
    by (unfold k0; destruct (existsb _ _); repeat split).
  pose proof (kinv_ext k k0 V M0 S0 I0 L0) as V0.
  rewrite (reset_loop ids k0 V0).
  - cbn [k_set_mem k_mem k_draws]. rewrite fold_adel, M0, D0. unfold ids. rewrite filter_drop by apply (ki_nodup _ V).
    eexists. unfold kept. unfold k_set_mem, k_set_draws. cbn. reflexivity.
  - intros id Hid. unfold ids in Hid. apply in_map_iff in Hid. destruct Hid as ([j m] & <- & Hx). apply filter_In in Hx.
    destruct Hx as [Hx R]. apply (aget_of_in _ _ _ (ki_nodup _ V)) in Hx. cbn [fst].
    apply (idx_absent k0 j m V0); [unfold rec_at; rewrite M0; exact Hx|].
    pose proof (ki_rec _ V j m Hx) as [_ S]. unfold removable in R. cbn [fst snd] in R.
    destruct (m_state m); cbn in R; rewrite ?andb_false_r in R; try discriminate; exact S.
Qed.
Lemma kinv_reset now k : kinv k -> kinv (reset_members C now k).
Proof.
  intros V. destruct (reset_eq now k V) as (d & ->).
  set (k0 := if existsb _ _ then bumpv k else k).
  assert (k_sidx k0 = k_sidx k /\ k_inc k0 = k_inc k /\ k_life k0 = k_life k) as (S0 & I0 & L0) by (unfold k0; destruct (existsb _ _); repeat split).
  destruct V as [ND DI IX RC (ml & GL & LO)].
  set (t' := filter (kept now) (k_mem k)). pose proof (nodup_filter (kept now) _ ND : NoDup (akeys t')) as ND'.
  assert (forall id, aget id (shuffle (fun i => c_rng C (k_draws k + N.of_nat i)) t') = match rec_at k id with Some m => if kept now (id, m) then Some m else None | None => None end) as GA.
  { intros id. rewrite (perm_aget _ _ id (shuffle_perm _ t') ND'). unfold t'. rewrite aget_filter by exact ND. reflexivity. }
  constructor; unfold rec_at, local_ok in *; cbn [k_set_mem k_set_draws k_mem k_sidx k_inc k_life]; rewrite ?S0, ?I0, ?L0.
  - apply (perm_nodup_keys t'); [apply shuffle_perm|exact ND'].
  - exact DI.
  - intros id. rewrite IX, GA. unfold rec_at. destruct (aget id (k_mem k)) as [m|] eqn:G; [|reflexivity].
    destruct (kept now (id, m)) eqn:E; [reflexivity|]. cbn. pose proof (RC id m G) as [_ S].
    unfold kept, removable in E. cbn [fst snd] in E. apply negb_false_iff in E.
    destruct (m_state m); cbn in E; rewrite ?andb_false_r in E; try discriminate; rewrite S; reflexivity.
  - intros id m. rewrite GA. unfold rec_at. destruct (aget id (k_mem k)) as [n|] eqn:G; [|discriminate].
    destruct (kept now (id, n)); [|discriminate]. intros [= <-]. exact (RC _ _ G).
  - exists ml. rewrite GA. unfold rec_at. rewrite GL. unfold kept, removable. cbn [fst]. rewrite N.eqb_refl. cbn.
    split; [reflexivity|exact LO].
Qed.
Lemma kinv_step o now k k' : kinv k -> kstep o now k k' -> kinv k'.
Proof.
  intros V S. destruct S as [k g accused m Go GA R G I A|k id m s s' d inc from Go R G I SU SC|k id m inc from Go R G I A NL|k id m inc from Go R G I DL NL
    |k m al Go R AD G NA|k al off draws Go R AD G MX|k al m tk Go R AD G NL T|k h|k meta _ R L|k id delta|k|k m _ R G|k e|k e|k e r|k Q|k f|k n].
  - destruct (ki_local _ V) as (m0 & G0 & EI & EA & EP & ED & LS). assert (m0 = m) by congruence. subst m0. cbn zeta.
    pose proof (ki_rec _ V _ _ G) as [EID ST]. rewrite A in ST.
    eapply (kinv_upd k _ LID (m_set_inc (refuted_inc accused (k_inc k))) None m); auto.
    + cbn. rewrite di_set_absent; [reflexivity|]. exact (idx_absent k _ m V G ST).
    + cbn. rewrite ST. reflexivity.
    + split; cbn; [exact EID|]. rewrite A. exact ST.
    + eexists. split; [unfold rec_at; cbn; rewrite aget_mt_upd, N.eqb_refl; unfold rec_at in G; rewrite G; reflexivity|].
      unfold local_ok. cbn. repeat split; auto.
  - assert (id <> LID) as NL.
    { intros ->. destruct (ki_local _ V) as (m0 & G0 & EI & EA & EP & ED & LS). assert (m0 = m) by congruence. subst m0.
      pose proof (ki_rec _ V _ _ G) as [_ ST]. destruct LS as [[_ E]|[_ E]]; rewrite E in ST; congruence. }
    pose proof (ki_rec _ V _ _ G) as [EID ST]. assert (m_state m = PSuspect) as ES by (destruct (m_state m); try congruence; contradiction).
    assert (s_deadline s' = d) as Ed.
    { unfold susp_confirm in SC. destruct (_ <=? _); [discriminate|]. destruct (existsb _ _); [discriminate|]. injection SC as <- <-. reflexivity. }
    eapply (kinv_upd k _ id (m_set_susp (Some s')) (Some d) m); auto.
    + cbn. congruence.
    + split; cbn; [exact EID|]. rewrite ES. discriminate.
    + eapply (local_other k); [exact V|reflexivity|exact NL|reflexivity|reflexivity].
  - pose proof (ki_rec _ V _ _ G) as [EID ST]. cbn zeta. set (s := susp_new _ _ _ _ _).
    eapply (kinv_upd k _ id (fun m => m_set_state PSuspect now (m_set_inc inc (m_set_susp (Some s) m))) (Some (s_deadline s)) m); auto.
    + split; cbn; [exact EID|discriminate].
    + eapply (local_other k); [exact V|reflexivity|exact NL|reflexivity|reflexivity].
  - pose proof (ki_rec _ V _ _ G) as [EID ST].
    eapply (kinv_upd k _ id (fun m => m_set_state (if id =? from then PLeft else PDead) now (m_set_inc inc (m_set_susp None m))) None m); auto.
    + split; cbn; [exact EID|]. destruct (id =? from); reflexivity.
    + eapply (local_other k); [exact V|reflexivity|exact NL|reflexivity|reflexivity].
  - apply (kinv_ext k); auto.
  - destruct V as [ND DI IX RC (ml & GL & LO)]. unfold rec_at in G.
    assert (al_id al <> LID) as NL by (intros E; unfold rec_at in GL; congruence).
    constructor; unfold rec_at, local_ok in *; cbn.
    + apply nodup_mt_insert; assumption.
    + exact DI.
    + intros id. rewrite IX, aget_mt_insert by assumption. destruct (N.eqb_spec id (al_id al)) as [E|]; [rewrite E, G|]; reflexivity.
    + intros id m. rewrite aget_mt_insert by assumption. destruct (N.eqb_spec id (al_id al)) as [E|]; [|apply RC].
      intros [= <-]. split; cbn; congruence.
    + exists ml. rewrite aget_mt_insert by assumption. destruct (N.eqb_spec LID (al_id al)); [congruence|]. split; assumption.
  - cbn zeta. set (m1 := mkM _ _ _ _ _ _).
    assert (forall k1, k_mem k1 = mt_upd (al_id al) (fun _ => m1) (k_mem k) -> k_sidx k1 = di_set (al_id al) None (k_sidx k) ->
              k_inc k1 = k_inc k -> k_life k1 = k_life k -> kinv k1) as K.
    { intros k1 E1 E2 E3 E4. eapply (kinv_upd k k1 (al_id al) (fun _ => m1) None m); auto.
      - split; reflexivity.
      - eapply (local_other k); eauto. }
    apply K; destruct tk; destruct (dead_or_left _); try destruct (negb _); reflexivity.
  - apply (kinv_ext k); auto.
  - destruct (ki_local _ V) as (m0 & G0 & EI & EA & EP & ED & LS). cbn zeta.
    pose proof (ki_rec _ V _ _ G0) as [EID ST]. assert (m_state m0 = PAlive) as A by (destruct LS as [[_ E]|[E _]]; congruence). rewrite A in ST.
    eapply (kinv_upd k _ LID (fun m => m_set_server (mkNS LID (c_addr C) PAlive meta (c_pv C) (c_dv C)) (m_set_inc (wadd32 (k_inc k) 1) m)) None m0); auto.
    + cbn. rewrite di_set_absent; [reflexivity|]. exact (idx_absent k _ m0 V G0 ST).
    + cbn. rewrite ST. reflexivity.
    + split; cbn; [reflexivity|]. rewrite A. exact ST.
    + eexists. split; [unfold rec_at; cbn; rewrite aget_mt_upd, N.eqb_refl; unfold rec_at in G0; rewrite G0; reflexivity|].
      unfold local_ok. cbn. repeat split; auto.
  - destruct V as [ND DI IX RC (ml & GL & LO)]. unfold age_member. constructor; unfold rec_at, local_ok in *; cbn.
    + rewrite akeys_mt_upd. exact ND.
    + exact DI.
    + intros j. rewrite IX, aget_mt_upd. destruct (j =? id); [|reflexivity]. unfold rec_at. destruct (aget j (k_mem k)); reflexivity.
    + intros j m. rewrite aget_mt_upd. destruct (j =? id); [|apply RC]. destruct (aget j (k_mem k)) as [n|] eqn:E; [|discriminate].
      intros [= <-]. exact (RC _ _ E).
    + rewrite aget_mt_upd, GL. destruct (LID =? id); [|exists ml; auto]. eexists. split; [reflexivity|]. exact LO.
  - apply kinv_reset, V.
  - destruct (ki_local _ V) as (m0 & G0 & EI & EA & EP & ED & LS). assert (m0 = m) by congruence. subst m0.
    pose proof (ki_rec _ V _ _ G) as [EID ST].
    eapply (kinv_upd k _ LID (fun m => m_set_state PLeft now (m_set_inc (k_inc k) (m_set_susp None m))) None m); auto.
    + split; [exact EID|reflexivity].
    + eexists. split; [unfold rec_at; cbn; rewrite aget_mt_upd, N.eqb_refl; unfold rec_at in G; rewrite G; reflexivity|].
      unfold local_ok. cbn. repeat split; auto.
  - apply (kinv_ext k); auto.
  - apply (kinv_ext k); auto.
  - apply (kinv_ext k); auto.
  - apply (kinv_ext k); auto.
  - apply (kinv_ext k); auto.
  - apply (kinv_ext k); auto.
Qed.
Lemma kinv_steps o now k k' : kinv k -> ksteps o now k k' -> kinv k'.
Proof. intros V S. induction S as [|k1 k2 k3 S1 S2 IH]; [exact V|]. apply IH. exact (kinv_step o now k1 k2 V S1). Qed.
Lemma kinv_new now : kinv (core_new C now).
Proof.
  constructor; unfold rec_at, local_ok; cbn.
  - constructor; [intros []|constructor].
  - exact dinv_new.
  - intros id. destruct (id =? LID); reflexivity.
  - intros id m. destruct (N.eqb_spec id LID) as [E|]; [|discriminate]. intros [= <-]. split; cbn; [congruence|reflexivity].
  - rewrite N.eqb_refl. eexists. split; [reflexivity|]. cbn. repeat split. left. split; reflexivity.
Qed.
End Core.
