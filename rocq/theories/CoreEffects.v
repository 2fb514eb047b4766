(** What single operations of the membership core do. *)
From Coq Require Import Permutation.
From Verif Require Import CoreModel MapFacts BaseFacts DeadlineFacts MembersFacts LabelFacts CoreFacts CoreInv CoreSteps BroadcastInv BroadcastHist CoreTrans CoreHist CoreSpec.
Local Open Scope N_scope.

Section Core.
Variable C : cfg.
Implicit Types (k : core) (m : member) (id : N).
Notation LID := (c_id C).
Notation kinv := (kinv C).
Notation kstep := (kstep C).
Notation kchain := (kchain C).
Notation effort := (effort C).
Notation enc_ok := (enc_ok C).

(** ** The suspicion timer *)
Definition kill_ev k id : event := match rec_at k id with Some m => EvLeft (m_server m) | None => EvLeftCluster end.
Lemma expire_fold now ids : forall k n, kinv k -> k_life k = Running -> kq C n k -> enc_ok -> n + N.of_nat (length ids) < u64_max -> NoDup ids ->
  (forall id, In id ids -> exists m, rec_at k id = Some m /\ due now m = true) ->
  let k' := fold_left (fun k id => process_dead C match aget id (k_mem k) with Some m => m_inc m | None => 0 end id LID now k) ids k in
  kinv k' /\ k_life k' = Running /\ kq C (n + N.of_nat (length ids)) k' /\
  (forall id, ~ In id ids -> rec_at k' id = rec_at k id) /\
  (forall id m, In id ids -> rec_at k id = Some m ->
     rec_at k' id = Some (killed now m) /\ queued (id, MDead (m_inc m) id LID) k') /\
  (forall id x, ~ In id ids -> queued (id, x) k -> queued (id, x) k') /\
  k_ev k' = k_ev k ++ map (kill_ev k) ids.
Proof.
  induction ids as [|i ids IH]; intros k n V R Q HE L ND HD; cbn [fold_left map length].
  - split; [exact V|]. split; [exact R|]. split; [apply (kq_le C n); [lia|exact Q]|]. split; [reflexivity|].
    split; [intros id m []|]. split; [auto|]. symmetry. apply app_nil_r.
  - destruct (HD i (or_introl eq_refl)) as (m & G & D). inversion ND as [|? ? N1 ND']; subst.
    pose proof (ki_rec _ _ V _ _ G) as [EID ST].
    assert (m_state m = PSuspect) as ES.
    { unfold due in D. destruct (m_susp m) eqn:E; [|discriminate]. destruct (m_state m); try congruence; contradiction. }
    assert (i <> LID) as NL.
    { intros ->. destruct (local_rec C k V) as (ml & GL & _ & _ & S0 & _). unfold due in D. assert (ml = m) by congruence. subst. rewrite S0 in D. discriminate. }
    unfold rec_at in G. rewrite G. fold (rec_at k i) in G.
    rewrite (dead_kills C (m_inc m) i now k m V R G ltac:(lia) ltac:(rewrite ES; reflexivity) NL).
    set (k0 := k_set_sidx _ _). set (k1 := emit _ _).
    assert (kstep (KExpire now) now k k1) as S1.
    { pose proof (s_dead C (KExpire now) now k i m (m_inc m) LID ltac:(cbn; eauto 6) R G ltac:(lia) ltac:(rewrite ES; reflexivity) NL) as S.
      destruct (N.eqb_spec i LID); [contradiction|]. exact S. }
    pose proof (kinv_step C _ _ _ _ V S1) as V1. pose proof (kq_step C n _ _ _ _ HE S1 Q) as Q1.
    assert (kq C n k0) as Q0 by (apply (kq_ext C n k); [exact Q|reflexivity]).
    assert (forall id, rec_at k1 id = if id =? i then Some (killed now m) else rec_at k id) as R1.
    { intros id. unfold rec_at, k1. cbn. rewrite aget_mt_upd. destruct (N.eqb_spec id i) as [->|]; [|reflexivity]. unfold rec_at in G. rewrite G. reflexivity. }
    assert (forall id x, queued (id, x) k1 <-> queued (id, x) (bcast C i (MDead (m_inc m) i LID) k0)) as QK by (intros; reflexivity).
    destruct (IH k1 (n + 1) V1 R Q1 HE ltac:(cbn [length] in L; lia) ND') as (A & B & Q2 & D1 & D2 & D3 & D4).
    { intros id Hid. destruct (HD id (or_intror Hid)) as (m' & G' & D'). exists m'. split; [|exact D'].
      rewrite R1. destruct (N.eqb_spec id i) as [->|]; [contradiction|exact G']. }
    split; [exact A|]. split; [exact B|]. split; [apply (kq_le C (n + 1 + N.of_nat (length ids))); [lia|exact Q2]|].
    split; [|split; [|split]].
    + intros id Hn. rewrite D1 by (intros Hi; apply Hn; right; exact Hi). rewrite R1.
      destruct (N.eqb_spec id i) as [->|]; [exfalso; apply Hn; left; reflexivity|reflexivity].
    + intros id m' [<-|Hi] G'.
      * assert (m' = m) by congruence. subst m'. split.
        -- rewrite D1 by exact N1. rewrite R1, N.eqb_refl. reflexivity.
        -- apply D3; [exact N1|]. apply QK. apply (bcast_queued C i _ n k0); [exact Q0|lia].
      * assert (id <> i) as Hne by (intros ->; contradiction).
        apply D2; [exact Hi|]. rewrite R1. destruct (N.eqb_spec id i); [contradiction|exact G'].
    + intros id x Hn Hq. apply D3; [intros Hi; apply Hn; right; exact Hi|]. apply QK.
      apply (bcast_keeps C i _ n k0); [exact Q0|lia| |exact Hq]. intros ->. apply Hn. left. reflexivity.
    + rewrite D4. change (k_ev k1) with (k_ev k ++ [EvLeft (m_server m)]). rewrite <- app_assoc. cbn [app]. f_equal.
      replace (kill_ev k i) with (EvLeft (m_server m)) by (unfold kill_ev; rewrite G; reflexivity). f_equal.
      apply map_ext_in. intros id Hid. unfold kill_ev. rewrite R1. destruct (N.eqb_spec id i) as [->|]; [contradiction|reflexivity].
Qed.

(** ** The number of members *)
Definition cap_ok k : Prop := match c_max_members C with Some mx => k_n k <= N.max mx 1 | None => True end.
Lemma cap_step o now k k' : kinv k -> kstep o now k k' -> cap_ok k -> cap_ok k'.
Proof.
  unfold cap_ok. intros V S H. destruct (c_max_members C) as [mx|] eqn:E; [|exact I].
  destruct S as [k g accused m Go GA R G I A|k i m s s' d inc from Go R G I SU SC|k i m inc from Go R G I A NL|k i m inc from Go R G I DL NL
    |k m al Go R AD G NA|k al off draws Go R AD G MX|k al m tk Go R AD G NL T|k hh|k meta Eo R L|k i delta Eo|k Eo|k m Eo R G|k e Eo Q|k e Eo|k e r|k Q|k f|k n'];
    unfold k_n in *; try (cbn; rewrite ?blen_mt_upd; exact H).
  - cbn. rewrite E in MX. rewrite blen_mt_insert. lia.
  - destruct tk; destruct (dead_or_left _); try destruct (negb _); cbn; rewrite ?blen_mt_upd; exact H.
  - destruct (reset_eq C now k V) as (d & ->). cbn. rewrite blen_shuffle. unfold blen in *. pose proof (filter_len_le (kept C now) (k_mem k)). lia.
Qed.
Lemma cap_run os t0 : cap_ok (fst (core_run C (core_new C t0) os)).
Proof.
  apply (fun A B => run_ind C (fun _ => True) (fun _ => cap_ok) A B os (core_new C t0) 0).
  - auto.
  - intros n o now k k' _ V S. exact (cap_step o now k k' V S).
  - apply Forall_forall. auto.
  - apply kinv_new.
  - unfold cap_ok. destruct (c_max_members C) as [mx|]; [|exact I]. unfold k_n, core_new, blen. cbn. lia.
Qed.

(** ** Merging never kills *)
Lemma merge_keeps_live l now k id : kinv k -> (forall p, In p l -> pn_id p = id -> pn_state p <> PLeft) ->
  live (rec_at k id) = true -> live (rec_at (merge_state C l now k) id) = true.
Proof.
  intros V H. destruct (core_step_chain C k (KMerge l now) V) as (j & _ & S). cbn [core_step fst op_now] in S.
  induction S as [|n k1 k2 k3 S1 S2 IH]; intros L; [exact L|]. apply IH; [exact (kinv_step C _ _ _ _ V S1)|].
  pose proof (step_trans C _ _ _ _ id V S1) as T. revert L. generalize dependent (rec_at k1 id). generalize (rec_at k2 id). intros r' r T.
  destruct T as [r|g accused m A B D E F I J|m s s' inc from d A B D E F I J|m s inc from A B D E F|m inc from A B D E F
    |al A B D E F I|al m tk A B D E F I J|m meta A B D E F I|m d A|m A B D E|m A B D E F]; cbn; auto; try discriminate.
  exfalso. destruct B as (_ & p & Hp & Ep). unfold heard in Ep. destruct (pn_state p) eqn:EP; try discriminate. injection Ep as E1 E2 E3.
  exact (H p Hp E2 EP).
Qed.

(** ** Refutation *)
Lemma refuted_eq accused i : i <= accused -> accused < u32_max -> refuted_inc accused i = accused + 1.
Proof.
  intros H1 H2. unfold refuted_inc, wadd32. assert (forall x, x < u32_max -> (x + 1) mod two32 = x + 1) as E
    by (intros x Hx; apply N.mod_small; unfold u32_max, two32 in *; lia).
  rewrite !E by lia. destruct (N.leb_spec (i + 1) accused); lia.
Qed.
(** the operations that accuse the local node of being at [accused] *)
Definition accusation k (o : cop) (accused : N) : Prop :=
  match o with
  | KSuspect inc id _ _ | KDead inc id _ _ => id = LID /\ inc = accused
  | KAlive al _ => al_id al = LID /\ al_addr al = c_addr C /\ al_inc al = accused /\ k_adm k (alive_ns al PAlive) = true /\
      (k_inc k < accused \/ exists m, rec_at k LID = Some m /\
         (ns_meta (m_server m) <> al_meta al \/ c_pv C <> al_pv al \/ c_dv C <> al_dv al))
  | _ => False
  end.
Lemma refute_exact o accused k m : kinv k -> k_life k = Running -> accusation k o accused -> k_inc k <= accused -> accused < u32_max ->
  rec_at k LID = Some m ->
  fst (core_step C k o) = bcast C LID (MAlive (alive_of (accused + 1) (m_server m)))
     (upd LID (m_set_inc (accused + 1)) (k_set_inc (accused + 1) (health_fail 1 k))).
Proof.
  intros V R HA HI HM G. destruct (local_rec C k V) as (m0 & G0 & EI & EID & ES & EA & NLv & EAdr). assert (m0 = m) by congruence. subst m0.
  assert (refute C accused k = bcast C LID (MAlive (alive_of (accused + 1) (m_server m)))
     (upd LID (m_set_inc (accused + 1)) (k_set_inc (accused + 1) (health_fail 1 k)))) as K.
  { rewrite <- (refuted_eq accused (k_inc k) HI HM). unfold refute. rewrite R. cbn [is_running]. cbn zeta.
    assert ((if k_inc (next_inc k) <=? accused then skip_past accused (next_inc k) else next_inc k)
      = k_set_inc (refuted_inc accused (k_inc k)) k) as ->
      by (unfold refuted_inc, skip_past, next_inc; cbn; destruct (wadd32 (k_inc k) 1 <=? accused) eqn:E; rewrite ?E; reflexivity).
    cbn. unfold rec_at in G. rewrite G, EID. reflexivity. }
  unfold rec_at in G. destruct o; try contradiction; cbn [core_step fst].
  - destruct HA as (E1 & E2 & E3 & E4 & E5). unfold process_alive. rewrite R, E4. cbn [is_running negb]. unfold alive_decided. rewrite E1, G, EAdr, E2, N.eqb_refl.
    unfold alive_apply. rewrite E1, G, N.eqb_refl. cbn [negb andb]. destruct (N.ltb_spec (al_inc al) (m_inc m)); [lia|].
    rewrite (clear_none C k LID m V G0 ES). rewrite E3.
    match goal with |- (if ?b then _ else _) = _ => assert (b = false) as -> end; [|exact K].
    destruct E5 as [E5|(m1 & G1 & E5)].
    + destruct (N.eqb_spec accused (m_inc m)); [lia|reflexivity].
    + assert (m1 = m) by congruence. subst m1. destruct (accused =? m_inc m); [|reflexivity]. cbn [andb].
      destruct (ki_local _ _ V) as (m2 & G2 & _ & _ & EP & ED & _). assert (m2 = m) by (unfold rec_at in G2; congruence). subst m2.
      rewrite EP, ED. destruct (bytes_eqb_spec (ns_meta (m_server m)) (al_meta al)); [|reflexivity]. cbn [andb].
      destruct (N.eqb_spec (c_pv C) (al_pv al)); [|reflexivity]. destruct (N.eqb_spec (c_dv C) (al_dv al)); [|reflexivity]. intuition congruence.
  - destruct HA as [-> ->]. unfold process_suspect. rewrite R, G. cbn [is_running negb]. destruct (N.ltb_spec accused (m_inc m)); [lia|].
    rewrite ES, (EA R), N.eqb_refl. exact K.
  - destruct HA as [-> ->]. unfold process_dead. rewrite G. destruct (N.ltb_spec accused (m_inc m)); [lia|].
    rewrite (EA R), N.eqb_refl, R. exact K.
Qed.

(** ** Delivering twice *)
Lemma confirm_again lg s from t1 t2 s' r : susp_confirm lg s from t1 = (s', r) -> susp_confirm lg s' from t2 = (s', Ignored).
Proof.
  unfold susp_confirm. destruct (N.leb_spec (s_k s) (s_n s)) as [|H].
  { intros [= <- <-]. destruct (N.leb_spec (s_k s) (s_n s)); [reflexivity|lia]. }
  destruct (existsb (N.eqb from) (s_confirmed s)) eqn:E.
  { intros [= <- <-]. destruct (N.leb_spec (s_k s) (s_n s)); [reflexivity|]. rewrite E. reflexivity. }
  intros [= <- <-]. cbn. destruct (_ <=? _); [reflexivity|]. rewrite N.eqb_refl. reflexivity.
Qed.
Lemma new_again lg from kk mn mx t1 t2 : susp_confirm lg (susp_new from kk mn mx t1) from t2 = (susp_new from kk mn mx t1, Ignored).
Proof. unfold susp_confirm, susp_new. cbn. destruct (_ <=? _); [reflexivity|]. rewrite N.eqb_refl. reflexivity. Qed.

Lemma suspect_twice inc id from t1 t2 k : kinv k -> inc < u32_max ->
  process_suspect C inc id from t2 (process_suspect C inc id from t1 k) = process_suspect C inc id from t1 k.
Proof.
  intros V HM. unfold process_suspect at 2 3. destruct (is_running (k_life k)) eqn:R; cbn [negb]; [|unfold process_suspect; rewrite R; reflexivity].
  pose proof (running_true _ R) as R'.
  destruct (aget id (k_mem k)) as [m|] eqn:G; [|unfold process_suspect; rewrite R, G; reflexivity].
  destruct (N.ltb_spec inc (m_inc m)) as [I|I].
  { unfold process_suspect. rewrite R, G. cbn [negb]. destruct (N.ltb_spec inc (m_inc m)); [reflexivity|lia]. }
  destruct (m_susp m) as [s|] eqn:S.
  - destruct (susp_confirm (c_lg C) s from t1) as [s' [d|]] eqn:SC.
    + unfold process_suspect at 1. cbn [k_life bcast k_set_bc k_set_sidx upd k_set_mem k_mem]. rewrite R. cbn [negb]. rewrite aget_mt_upd, N.eqb_refl, G. cbn.
      destruct (N.ltb_spec inc (m_inc m)); [lia|]. rewrite (confirm_again _ _ _ _ t2 _ _ SC). reflexivity.
    + unfold process_suspect. rewrite R, G. cbn [negb]. destruct (N.ltb_spec inc (m_inc m)); [lia|]. rewrite S.
      assert (s' = s) as -> by (unfold susp_confirm in SC; destruct (_ <=? _); [congruence|]; destruct (existsb _ _); [congruence|discriminate]).
      rewrite (confirm_again _ _ _ _ t2 _ _ SC). reflexivity.
  - destruct (pstate_eqb_spec (m_state m) PAlive) as [A|A]; cbn [negb].
    2: { unfold process_suspect. rewrite R, G. cbn [negb]. destruct (N.ltb_spec inc (m_inc m)); [lia|]. rewrite S.
         destruct (pstate_eqb_spec (m_state m) PAlive); [contradiction|reflexivity]. }
    destruct (N.eqb_spec id LID) as [->|NL].
    + destruct (local_rec C k V) as (m0 & G0 & EI & _). assert (m0 = m) by (unfold rec_at in G0; congruence). subst m0.
      assert (refute C inc k = fst (core_step C k (KSuspect inc LID from t1))) as E.
      { cbn. unfold process_suspect. rewrite R, G. cbn [negb]. destruct (N.ltb_spec inc (m_inc m)); [lia|]. rewrite S, A, N.eqb_refl. reflexivity. }
      rewrite E. rewrite (refute_exact (KSuspect inc LID from t1) inc k m V R' (conj eq_refl eq_refl) ltac:(lia) HM G0). cbn.
      unfold process_suspect. cbn. rewrite R'. cbn. rewrite aget_mt_upd, N.eqb_refl, G. cbn. destruct (N.ltb_spec inc (inc + 1)); [reflexivity|lia].
    + destruct (c_sto C (k_n k)) as [mn mx]. unfold install_suspicion. rewrite G.
      unfold process_suspect at 1. cbn. rewrite R. cbn [negb]. rewrite mt_upd_upd, aget_mt_upd, N.eqb_refl, G. cbn.
      destruct (N.ltb_spec inc inc); [lia|]. rewrite new_again. reflexivity.
Qed.
Lemma dead_twice inc id from t1 t2 k : kinv k -> inc < u32_max ->
  process_dead C inc id from t2 (process_dead C inc id from t1 k) = process_dead C inc id from t1 k.
Proof.
  intros V HM. unfold process_dead at 2 3.
  destruct (aget id (k_mem k)) as [m|] eqn:G; [|unfold process_dead; rewrite G; reflexivity].
  destruct (N.ltb_spec inc (m_inc m)) as [I|I].
  { unfold process_dead. rewrite G. destruct (N.ltb_spec inc (m_inc m)); [reflexivity|lia]. }
  destruct (dead_or_left (m_state m)) eqn:DL.
  { unfold process_dead. rewrite G, DL. destruct (inc <? m_inc m); reflexivity. }
  destruct (local_rec C k V) as (m0 & G0 & EI & EID & ES & EA & NLv & EAdr).
  destruct (N.eqb_spec id LID) as [->|NL].
  - assert (m0 = m) by (unfold rec_at in G0; congruence). subst m0. destruct (k_life k) eqn:L; [|congruence|].
    + assert (refute C inc k = fst (core_step C k (KDead inc LID from t1))) as E.
      { cbn. unfold process_dead. rewrite G. destruct (N.ltb_spec inc (m_inc m)); [lia|]. rewrite DL, N.eqb_refl, L. reflexivity. }
      rewrite E. rewrite (refute_exact (KDead inc LID from t1) inc k m V L (conj eq_refl eq_refl) ltac:(lia) HM G0). cbn.
      unfold process_dead. cbn. rewrite aget_mt_upd, N.eqb_refl, G. cbn. destruct (N.ltb_spec inc (inc + 1)); [reflexivity|lia].
    + unfold refute. rewrite L. cbn. unfold process_dead. rewrite G, DL, N.eqb_refl, L. destruct (inc <? m_inc m); [reflexivity|]. unfold refute. rewrite L. reflexivity.
  - destruct (is_running (k_life k)) eqn:R; cbn [negb].
    + unfold process_dead at 1. cbn. rewrite mt_upd_upd, aget_mt_upd, N.eqb_refl, G. cbn.
      destruct (inc <? inc); [reflexivity|]. destruct (id =? from); reflexivity.
    + unfold process_dead. rewrite G, DL, R. destruct (inc <? m_inc m); [reflexivity|]. destruct (N.eqb_spec id LID); [contradiction|reflexivity].
Qed.
Lemma alive_stale al now k m : rec_at k (al_id al) = Some m -> al_id al <> LID -> al_inc al <= m_inc m ->
  alive_apply C al now false false k = k.
Proof.
  intros G NL H. unfold alive_apply. unfold rec_at in G. rewrite G. destruct (N.eqb_spec (al_id al) LID); [contradiction|].
  destruct (N.leb_spec (al_inc al) (m_inc m)); [reflexivity|lia].
Qed.
Definition conflicts (l : list event) : Prop := forall e, In e l -> match e with EvConflict _ _ => True | _ => False end.
Lemma alive_twice al now k : kinv k -> al_inc al < u32_max ->
  let k1 := process_alive C al now k in
  let k2 := process_alive C al now k1 in
  k2 = k1 \/ exists e, k2 = k_set_ev (k_ev k1 ++ [e]) k1 /\ conflicts [e].
Proof.
  intros V HM. cbn zeta.
  destruct (alive_steps C (KAlive al now) al now k (conj eq_refl eq_refl) V) as [E|S].
  { rewrite E. left. exact E. }
  remember (process_alive C al now k) as k1 eqn:E1.
  destruct (is_running (k_life k)) eqn:R.
  2: { unfold process_alive in E1. rewrite R in E1. cbn in E1. subst k1. left. unfold process_alive. rewrite R. reflexivity. }
  pose proof (running_true _ R) as R'.
  destruct (local_rec C k V) as (m0 & G0 & EI & EID & ES & EA & NLv & EAdr).
  assert (forall k1 m1, k_life k1 = Running -> k_adm k1 = k_adm k -> k_adm k (alive_ns al PAlive) = true -> rec_at k1 (al_id al) = Some m1 ->
    ns_addr (m_server m1) = al_addr al -> al_id al <> LID -> m_inc m1 = al_inc al -> process_alive C al now k1 = k1) as ST.
  { intros k2 m1 L1 L2 L3 L4 L5 L6 L7. unfold process_alive. rewrite L1, L2, L3. cbn [is_running negb]. unfold alive_decided. unfold rec_at in L4. rewrite L4, L5, N.eqb_refl.
    apply (alive_stale al now k2 m1); [exact L4|exact L6|lia]. }
  set (o := KAlive al now) in *. assert (o = KAlive al now) as Eo by reflexivity. clearbody o.
  assert (forall al', origin C o now (GAlive al') -> al' = al) as OE by (intros al'; rewrite Eo; cbn; intros [_ [= ->]]; reflexivity).
  destruct S as [k g accused m Go GA R1 G I A|k i m s s' d inc from Go R1 G I SU SC|k i m inc from Go R1 G I A NL|k i m inc from Go R1 G I DL NL
    |k m al' Go R1 AD G NA|k al' off draws Go R1 AD G MX|k al' m tk Go R1 AD G NL T|k hh Eo'|k meta Eo' R1 L|k i delta Eo'|k Eo'|k m Eo' R1 G|k e Eo' Q|k e Eo'|k e r Eo'|k Q Eo'|k f Eo'|k n' Eo'];
    try (rewrite Eo in Eo'; discriminate); try (rewrite Eo in Eo'; destruct hh; discriminate); try (rewrite Eo in Eo'; destruct Eo'; fail); try (rewrite Eo in Go; destruct Go; discriminate).
  - left. clear E1. rewrite Eo in Go. destruct Go as [_ ->]. destruct GA as (E1 & E2 & E3). cbn zeta. subst accused.
    assert (m0 = m) by congruence. subst m0. rewrite refuted_eq by lia.
    unfold process_alive. cbn. rewrite R. cbn [negb]. destruct (k_adm k (alive_ns al PAlive)); [|reflexivity]. unfold alive_decided. cbn. rewrite E1, aget_mt_upd, N.eqb_refl. unfold rec_at in G. rewrite G. cbn.
    rewrite EAdr, E2, N.eqb_refl. unfold alive_apply. cbn. rewrite E1, aget_mt_upd, N.eqb_refl, G. cbn. destruct (N.ltb_spec (al_inc al) (al_inc al + 1)); [reflexivity|lia].
  - rewrite (OE _ Go) in *. right. assert (ns_addr (m_server m) =? al_addr al = false) as NA' by (apply N.eqb_neq; exact NA).
    unfold process_alive in *. cbn [emit k_set_ev k_life k_adm] in *. rewrite R in *. cbn [negb] in *. rewrite AD in *.
    unfold alive_decided in *. cbn [emit k_set_ev k_mem] in *. unfold rec_at in G. rewrite G in *. rewrite NA' in *. cbv zeta in *.
    destruct (match m_state m with PDead => _ | PLeft => true | _ => false end) eqn:TK.
    2: { eexists. split; [reflexivity|]. intros e [<-|[]]. exact Logic.I. }
    exfalso. assert (dead_or_left (m_state m) = true) as DL by (destruct (m_state m); try discriminate; reflexivity).
    unfold alive_apply in E1. rewrite G in E1. destruct (N.eqb_spec (al_id al) LID) as [EL|NL].
    + assert (m0 = m) by (unfold rec_at in G0; congruence). subst m0. rewrite (EA R') in DL. discriminate.
    + cbn in E1. rewrite DL in E1. apply (f_equal k_ev) in E1. cbn in E1. apply app_inj_tail in E1. destruct E1. discriminate.
  - left. clear E1. rewrite (OE _ Go) in *. eapply (ST _ (mkM (alive_ns al PAlive) (al_inc al) now PAlive None (k_gen k))); try assumption; try reflexivity.
    + unfold rec_at. cbn. rewrite aget_mt_insert by (exact (ki_nodup _ _ V) || exact G). rewrite N.eqb_refl. reflexivity.
    + congruence.
  - left. clear E1. rewrite (OE _ Go) in *. cbn zeta. set (m1 := mkM _ _ _ _ _ _).
    match goal with |- process_alive _ _ _ ?k1 = _ => assert (k_mem k1 = mt_upd (al_id al) (fun _ => m1) (k_mem k) /\ k_life k1 = k_life k /\ k_adm k1 = k_adm k) as (E2 & E3 & E4)
      by (destruct tk; destruct (dead_or_left _); try destruct (negb _); repeat split; reflexivity) end.
    eapply (ST _ m1); try assumption; try reflexivity.
    + congruence.
    + unfold rec_at. rewrite E2, aget_mt_upd, N.eqb_refl. unfold rec_at in G. rewrite G. reflexivity.
Qed.

(** ** Departed members *)
Lemma origin_carries o now al : origin C o now (GAlive al) -> carries o al /\ op_now o = now.
Proof.
  destruct o; cbn; try contradiction.
  - intros [-> [= ->]]. auto.
  - intros [_ ?]. discriminate.
  - intros [_ ?]. discriminate.
  - intros (-> & p & Hp & E). unfold heard in E. destruct (pn_state p) eqn:S; try discriminate. injection E as <-. split; [|reflexivity]. exists p. auto.
  - intros (_ & a & b & E & _). discriminate.
Qed.
Definition frozen m m' : Prop := m_state m' = m_state m /\ m_inc m' = m_inc m /\ m_server m' = m_server m /\ m_gen m' = m_gen m.
Lemma departed_dl m : departed m <-> dead_or_left (m_state m) = true.
Proof. unfold departed. destruct (m_state m); cbn; intuition congruence. Qed.
Lemma departed_trans o now k k' id m r' : departed m -> mtrans C o now k k' id (Some m) r' ->
  (exists m', r' = Some m' /\ frozen m m' /\ (m' = m \/ exists d, o = KAge id d)) \/ (r' = None /\ o = KReset now) \/
  exists al m', origin C o now (GAlive al) /\ al_id al = id /\ readmits C now m al /\ r' = Some m' /\ m_state m' = PAlive.
Proof.
  intros D T. pose proof (proj1 (departed_dl m) D) as DL. remember (Some m) as r eqn:E.
  destruct T as [r|g accused m0 A B D0 E0 F I J|m0 s s' inc from d A B D0 E0 F I J|m0 s inc from A B D0 E0 F|m0 inc from A B D0 E0 F
    |al A B D0 E0 F I|al m0 tk A B D0 E0 F I J|m0 meta A B D0 E0 F I|m0 d A|m0 A B D0 E0|m0 A B D0 E0 F]; try discriminate; try (injection E as <-);
    try (match goal with H : m_state ?x = _ |- _ => rewrite H in DL; discriminate end); try congruence.
  - subst r. left. exists m. unfold frozen. auto 10.
  - right. right. exists al. eexists. split; [exact B|]. split; [congruence|]. split; [|split; [reflexivity|reflexivity]].
    unfold readmits. destruct tk.
    + destruct I as [I1 I2]. destruct (N.eqb_spec (al_addr al) (ns_addr (m_server m0))); [congruence|]. exact I2.
    + destruct I as [I1 I2]. rewrite I1, N.eqb_refl. exact I2.
  - left. eexists. split; [reflexivity|]. split; [repeat split|]. right. eauto.
  - right. left. auto.
Qed.
(** through a whole operation *)
Lemma departed_op o k id m : kinv k -> rec_at k id = Some m -> departed m ->
  let r' := rec_at (fst (core_step C k o)) id in
  (exists m', r' = Some m' /\ frozen m m') \/ (r' = None /\ exists now, o = KReset now) \/
  exists al, carries o al /\ al_id al = id /\ readmits C (op_now o) m al.
Proof.
  intros V G D. destruct (core_step_chain C k o V) as (j & _ & S). cbn zeta.
  assert ((exists now, o = KReset now) \/ (forall now, o <> KReset now)) as [(now & ->)|NR]
    by (destruct o; try (right; congruence); left; eauto).
  { pose proof (opt_trans C (KReset now) k id V Logic.I) as T. rewrite G in T.
    destruct (departed_trans _ _ _ _ _ _ _ D T) as [(m2 & E2 & F2 & _)|[[E2 Eo]|(al & m2 & O2 & _)]]; [eauto|eauto|destruct O2]. }
  assert (forall m1, rec_at k id = Some m1 -> frozen m m1 -> (m1 = m \/ exists d, o = KAge id d) ->
    (exists m', rec_at (fst (core_step C k o)) id = Some m' /\ frozen m m') \/
    (rec_at (fst (core_step C k o)) id = None /\ exists now, o = KReset now) \/
    (exists al, carries o al /\ al_id al = id /\ readmits C (op_now o) m al)) as K.
  2: { apply (K m G); [repeat split|left; reflexivity]. }
  generalize dependent (fst (core_step C k o)). intros k' S. clear G.
  remember (op_now o) as now eqn:Enow.
  induction S as [|n k1 k2 k3 S1 S2 IH]; intros m1 G F HE.
  - left. exists m1. auto.
  - pose proof (step_trans C _ _ _ _ id V S1) as T. rewrite G in T.
    assert (departed m1) as D1 by (unfold departed in *; destruct F as (-> & _); exact D).
    destruct (departed_trans _ _ _ _ _ _ _ D1 T) as [(m2 & E2 & F2 & HE2)|[[E2 Eo]|(al & m2 & O2 & I2 & R2 & E2 & A2)]].
    + apply (IH (kinv_step C _ _ _ _ V S1) m2); [exact E2| |].
      * unfold frozen in *. intuition congruence.
      * destruct HE2 as [->|HE2]; [exact HE|right; exact HE2].
    + destruct (NR _ Eo).
    + right. right. exists al. destruct (origin_carries _ _ _ O2) as [O3 _]. split; [exact O3|]. split; [exact I2|].
      destruct HE as [->|(d & ->)]; [exact R2|]. destruct O3.
Qed.

(** ** Incarnations *)
Lemma inc_trans o now k k' id m m' : id <> LID -> mtrans C o now k k' id (Some m) (Some m') -> m_inc m' < m_inc m ->
  departed m /\ exists al, origin C o now (GAlive al) /\ al_id al = id /\ al_addr al <> ns_addr (m_server m) /\ readmits C now m al.
Proof.
  intros NL T L. remember (Some m) as r eqn:E. remember (Some m') as r' eqn:E'.
  destruct T as [r|g accused m0 A B D0 E0 F I J|m0 s s' inc from d A B D0 E0 F I J|m0 s inc from A B D0 E0 F|m0 inc from A B D0 E0 F
    |al A B D0 E0 F I|al m0 tk A B D0 E0 F I J|m0 meta A B D0 E0 F I|m0 d A|m0 A B D0 E0|m0 A B D0 E0 F]; try discriminate; try congruence;
    try (injection E as <-); try (injection E' as <-); cbn in L; try lia.
  - subst r. injection E' as <-. lia.
  - destruct tk; [|lia]. destruct I as [I1 I2]. split; [unfold departed; tauto|].
    exists al. repeat split; auto. unfold readmits. destruct (N.eqb_spec (al_addr al) (ns_addr (m_server m0))); [congruence|exact I2].
Qed.
Lemma inc_step o now k k' : kinv k -> kstep o now k k' -> k_inc k' = k_inc k \/
  (exists accused g, origin C o now g /\ accuses C g accused /\ k_inc k <= accused /\ k_inc k' = refuted_inc accused (k_inc k)) \/
  (exists meta, o = KMeta meta /\ k_inc k' = wadd32 (k_inc k) 1).
Proof.
  intros V S. destruct (local_rec C k V) as (ml & GL & EIL & _).
  destruct S as [k g accused m Go GA R G I A|k i m s s' d inc from Go R G I SU SC|k i m inc from Go R G I A NL|k i m inc from Go R G I DL NL
    |k m al Go R AD G NA|k al off draws Go R AD G MX|k al m tk Go R AD G NL T|k h|k meta Eo R L|k i delta Eo|k Eo|k m Eo R G|k e|k e|k e r|k Q|k f|k n'];
    try (left; reflexivity).
  - right. left. exists accused, g. assert (ml = m) by congruence. subst ml. repeat split; auto. lia.
  - left. cbn zeta. destruct tk; destruct (dead_or_left _); try destruct (negb _); reflexivity.
  - right. right. eauto.
  - left. destruct (reset_eq C now k V) as (d & ->). cbn. destruct (existsb _ _); reflexivity.
Qed.
Definition metas (o : cop) : N := match o with KMeta _ => 1 | _ => 0 end.
Lemma accuses_below B o now g accused : accused_below C B o -> origin C o now g -> accuses C g accused -> accused < B.
Proof.
  intros H O A. destruct o; cbn in O; try contradiction; cbn in H.
  - destruct O as [_ ->]. destruct A as (A1 & _ & A2). subst. auto.
  - destruct O as [_ ->]. destruct A as (A1 & A2). subst. auto.
  - destruct O as [_ ->]. destruct A as (A1 & A2). subst. auto.
  - destruct O as (_ & p & Hp & E). unfold heard in E. destruct (pn_state p); try discriminate; injection E as <-; cbn in A; destruct A as (A1 & A2);
      try destruct A2 as (_ & A2); subst accused; apply H; assumption.
  - destruct O as (_ & a & b & -> & NL). destruct A as (A1 & A2). contradiction.
Qed.
Lemma inc_op B o k : kinv k -> accused_below C B o -> B <= u32_max -> k_inc k + metas o <= u32_max ->
  k_inc k <= k_inc (fst (core_step C k o)) <= N.max (k_inc k + metas o) B.
Proof.
  intros V HB LB LM. destruct (core_step_chain C k o V) as (j & _ & S).
  assert ((exists meta, o = KMeta meta) \/ (forall meta, o <> KMeta meta)) as [(meta & ->)|NM] by (destruct o; try (right; congruence); left; eauto).
  { destruct (core_step_opt C k (KMeta meta) V Logic.I) as [E|S1]; [rewrite E; cbn; lia|].
    destruct (inc_step _ _ _ _ V S1) as [E|[(a & g & O & _)|(mt & _ & E)]]; [rewrite E; lia|destruct O|].
    rewrite E. cbn in LM. unfold wadd32. rewrite N.mod_small by (unfold two32; unfold u32_max in LM; lia). cbn. lia. }
  assert (metas o = 0) as EM by (destruct o; try reflexivity; destruct (NM meta eq_refl)). rewrite EM in *.
  generalize dependent (fst (core_step C k o)). intros k' S. remember (op_now o) as now eqn:Enow. clear Enow.
  enough (k_inc k <= k_inc k' <= N.max (k_inc k) B) by lia.
  assert (k_inc k <= u32_max) as LK by lia. clear LM EM.
  induction S as [|n k1 k2 k3 S1 S2 IH]; [lia|].
  assert (k_inc k1 <= k_inc k2 <= N.max (k_inc k1) B) as H1.
  { destruct (inc_step _ _ _ _ V S1) as [E|[(a & g & O & A & L & E)|(mt & E0 & E)]]; [lia| |destruct (NM _ E0)].
    pose proof (accuses_below B _ _ _ _ HB O A) as LA. rewrite E, refuted_eq; lia. }
  specialize (IH (kinv_step C _ _ _ _ V S1) ltac:(lia)). lia.
Qed.
Fixpoint all_metas (os : list cop) : N := match os with [] => 0 | o :: r => metas o + all_metas r end.
Lemma inc_run B os : forall k, kinv k -> Forall (accused_below C B) os -> N.max (k_inc k) B + all_metas os <= u32_max ->
  k_inc k <= k_inc (fst (core_run C k os)) <= N.max (k_inc k) B + all_metas os.
Proof.
  induction os as [|o os IH]; intros k V F L; cbn [core_run all_metas] in *; [cbn; lia|].
  inversion F as [|? ? F1 F2]; subst. pose proof (inc_op B o k V F1 ltac:(lia) ltac:(lia)) as H1.
  pose proof (kinv_core_step C k o V) as V1. destruct (core_step C k o) as [k1 e1]. cbn [fst] in *.
  specialize (IH k1 V1 F2 ltac:(lia)). destruct (core_run C k1 os) as [k2 e2]. cbn [fst] in *. lia.
Qed.

(** ** Leaving *)
Definition is_left (r : option member) : bool := match r with Some m => pstate_eqb (m_state m) PLeft | None => false end.
Lemma left_trans o now k k' id r r' : id <> LID -> mtrans C o now k k' id r r' ->
  (is_left r' = true -> is_left r = true) \/ exists inc from, origin C o now (GDead inc id from) /\ id = from /\ forall m, r = Some m -> m_inc m <= inc.
Proof.
  intros NL T.
  destruct T as [r|g accused m0 A B D0 E0 F I J|m0 s s' inc from d A B D0 E0 F I J|m0 s inc from A B D0 E0 F|m0 inc from A B D0 E0 F
    |al A B D0 E0 F I|al m0 tk A B D0 E0 F I J|m0 meta A B D0 E0 F I|m0 d A|m0 A B D0 E0|m0 A B D0 E0 F]; try congruence; try (left; cbn; auto; discriminate).
  cbn. destruct (N.eqb_spec id from) as [E|]; [|left; cbn; discriminate].
  right. exists inc, from. split; [exact B|]. split; [exact E|]. intros m [= <-]. exact F.
Qed.
Lemma origin_self o now inc id from : id <> LID -> origin C o now (GDead inc id from) -> id = from -> o = KDead inc id id now.
Proof.
  intros NL O E. destruct o; cbn in O; try contradiction.
  - destruct O as [_ O]; discriminate.
  - destruct O as [_ O]; discriminate.
  - destruct O as [-> [= -> -> ->]]. congruence.
  - destruct O as (_ & p & _ & O). unfold heard in O. destruct (pn_state p); try discriminate. injection O; intros; congruence.
  - destruct O as (_ & a & b & O & _). injection O; intros; congruence.
Qed.
Lemma left_only o k id : kinv k -> id <> LID ->
  (is_left (rec_at (fst (core_step C k o)) id) = true -> is_left (rec_at k id) = true) \/
  exists inc now, o = KDead inc id id now /\ forall m, rec_at k id = Some m -> m_inc m <= inc.
Proof.
  intros V NL.
  assert ((exists inc now, o = KDead inc id id now) \/ (forall inc now, o <> KDead inc id id now)) as [(inc & now & ->)|ND].
  { destruct o as [| |inc0 id0 from0 now0| | | | | | | | | | | | | | |]; try (right; congruence).
    destruct (N.eq_dec id0 id) as [->|]; [|right; congruence]. destruct (N.eq_dec from0 id) as [->|]; [|right; congruence]. left. eauto. }
  - destruct (left_trans _ _ _ _ _ _ _ NL (opt_trans C (KDead inc id id now) k id V Logic.I)) as [H|(inc' & from & O & _ & H)]; [left; exact H|].
    right. exists inc, now. split; [reflexivity|]. destruct O as [_ [= <- _]]. exact H.
  - left. destruct (core_step_chain C k o V) as (j & _ & S). generalize dependent (fst (core_step C k o)). intros k' S.
    induction S as [|n k1 k2 k3 S1 S2 IH]; [auto|]. intros H. specialize (IH (kinv_step C _ _ _ _ V S1) H).
    destruct (left_trans _ _ _ _ _ _ _ NL (step_trans C _ _ _ _ id V S1)) as [L|(inc & from & O & E & _)]; [exact (L IH)|].
    destruct (ND _ _ (origin_self _ _ _ _ _ NL O E)).
Qed.
End Core.
