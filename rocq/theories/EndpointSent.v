(** What leaves the endpoint: every datagram fits, every answer was asked for. *)
From Coq Require Import Permutation.
From Verif Require Import CodecModel CodecSpec CodecFacts BroadcastInv BroadcastHist EndpointModel MapFacts BaseFacts CoreFacts CoreInv CoreSteps CoreTrans EndpointSteps EndpointInv EndpointHist EndpointRuns.
Local Open Scope N_scope.

Section Sent.
Variable C : cfg.
Notation LID := (c_id C).

(** ** Size of a compound *)
Definition vlen (n : N) : N := blen (encode_varint_u32 n).
Definition sumN (l : list N) : N := fold_right N.add 0 l.
Lemma sumN_app a b : sumN (a ++ b) = sumN a + sumN b.
Proof. unfold sumN. induction a; cbn [app fold_right]; lia. Qed.
Definition part_ok (m : msg) (w : N) : Prop := elen C m <= u32_max /\ vlen (elen C m) + elen C m <= w.
Lemma vlen3 n : n <= MTU_MAX -> vlen n <= 3.
Proof.
  intros H. unfold vlen. rewrite encode_varint_len by (unfold MTU_MAX, u32_max in *; lia). unfold varint_len.
  repeat match goal with |- context [if ?x then _ else _] => destruct x eqn:?E end; try lia.
  all: unfold MTU_MAX in H; exfalso; try apply N.ltb_ge in E1; try apply N.leb_gt in E1; lia.
Qed.
Lemma compound_fits to ms ws : (2 <= length ms)%nat -> Forall2 part_ok ms ws -> 6 + sumN ws <= MTU_MAX ->
  exists b, datagram C (TCompound to ms) = Ok b /\ blen b <= 6 + sumN ws.
Proof.
  intros L F S. unfold datagram, encode_compound.
  assert (blen (map (c_enc C) ms) = blen ms) as EL by (unfold blen; rewrite map_length; reflexivity). rewrite EL.
  destruct (N.ltb_spec (blen ms) 2) as [X|_]; [unfold blen in X; lia|].
  assert (blen ms <= sumN ws) as LS.
  { clear - F. induction F as [|m w ms ws [A B] F IH]; [apply N.le_refl|]. unfold blen, sumN in *. cbn [length fold_right].
    pose proof (encode_varint_len_bounds (elen C m) A) as V. unfold vlen in B. lia. }
  destruct (N.ltb_spec u32_max (blen ms)) as [X|_]; [unfold MTU_MAX, u32_max in *; lia|].
  destruct (encode_parts_ok (map (c_enc C) ms)) as (r & -> & R).
  { apply Forall_map. clear - F. induction F as [|m w ms ws [A B] F IH]; constructor; assumption. }
  eexists. split; [reflexivity|]. rewrite blen_cons, blen_app.
  pose proof (encode_varint_len_bounds (blen ms) ltac:(unfold MTU_MAX, u32_max in *; lia)) as V.
  enough (blen r <= sumN ws) by lia. rewrite R. clear - F. induction F as [|m w ms ws [A B] F IH]; [apply N.le_refl|].
  cbn [map concat]. rewrite !blen_app. unfold sumN in *. cbn [fold_right]. unfold vlen, elen in B. lia.
Qed.

(** ** What the encoder is assumed to do *)
Definition sizes : Prop :=
  enc_ok C /\
  (forall d, blen d <= MTU_MAX -> elen C (MUserData d) <= blen d + 8) /\
  (forall i, i <= u32_max -> elen C (MDead i LID LID) <= elen C (MPing u32_max (lnode C) (lnode C))).
Definition is_answer (m : msg) : bool := match m with MAck _ _ | MNack _ => true | _ => false end.
(** a datagram is a lone answer or fits *)
Definition sent_ok (t : transmit) : Prop :=
  match t with
  | TPacket _ m => is_answer m = true \/ elen C m <= c_mtu C
  | TCompound _ ms => (2 <= length ms)%nat /\ Forall not_answer ms /\ exists b, datagram C t = Ok b /\ blen b <= c_mtu C
  end.
Record sinv (e : ep) : Prop := mkSI {
  si_bc : gq C (e_core e);
  si_inc : k_inc (e_core e) <= u32_max;
  si_ub : Forall (wfq bytes_broadcast) (e_ub e);
  si_tx : Forall sent_ok (e_tx e) }.

Lemma kstep_inc o now k k' : kstep C o now k k' -> k_inc k <= u32_max -> k_inc k' <= u32_max.
Proof.
  assert (forall a b, wadd32 a b <= u32_max) as W.
  { intros a b. unfold wadd32. pose proof (N.mod_upper_bound (a + b) two32 ltac:(discriminate)). unfold two32, u32_max in *. lia. }
  intros S H. destruct S; try exact H.
  - cbn. unfold refuted_inc. destruct (_ <=? _); apply W.
  - cbn zeta. destruct takeover, (dead_or_left (m_state m)), (negb (bytes_eqb (ns_meta (m_server m)) (al_meta al))); exact H.
  - cbn. apply W.
  - unfold reset_members. cbn. set (ids := map fst _).
    assert (forall l k0, k_inc (fold_left (fun k id => k_set_mem (adel id (k_mem k)) (k_set_sidx (di_set id None (k_sidx k)) k)) l k0) = k_inc k0) as E
      by (induction l as [|a l IH]; intros k0; cbn [fold_left]; [reflexivity|rewrite IH; reflexivity]).
    rewrite E. destruct ids; exact H.
Qed.
Lemma inc_run os : forall k, kinv C k -> k_inc k <= u32_max -> k_inc (fst (core_run C k os)) <= u32_max.
Proof.
  intros k K H. rewrite core_run_fst. revert k K H. induction os as [|o os IH]; intros k K H; [exact H|]. cbn [fold_left].
  apply IH; [apply kinv_core_step, K|]. pose proof (core_step_steps C k o K) as S. revert H.
  induction S as [|? ? ? S _ IH2]; [auto|]. intros H. apply IH2; [eapply kinv_step; eauto|eapply kstep_inc; eauto].
Qed.

Variable HC : cfg_ok C = true.
Variable HS : sizes.
Lemma mtu_bounds : MTU_MIN <= c_mtu C <= MTU_MAX /\ elen C (MPing u32_max (lnode C) (lnode C)) <= c_mtu C.
Proof.
  unfold cfg_ok in HC. repeat match goal with H : _ && _ = true |- _ => apply andb_true_iff in H as [? ?] end.
  repeat match goal with H : (_ <=? _) = true |- _ => apply N.leb_le in H end. auto.
Qed.

(** users' payloads and messages as parts *)
Lemma user_part d : blen d <= MTU_MAX - 8 -> part_ok (MUserData d) (blen d + USER_OVERHEAD).
Proof.
  intros H. destruct HS as (_ & HU & _). pose proof (HU d ltac:(unfold MTU_MAX in *; lia)) as U.
  split; [unfold MTU_MAX, u32_max in *; lia|]. pose proof (vlen3 (elen C (MUserData d)) ltac:(unfold MTU_MAX in *; lia)) as V.
  unfold USER_OVERHEAD, PART_LEN. lia.
Qed.
Lemma msg_part m : elen C m <= MTU_MAX -> part_ok m (elen C m + PART_LEN).
Proof.
  intros H. split; [unfold MTU_MAX, u32_max in *; lia|]. pose proof (vlen3 _ H). unfold PART_LEN. lia.
Qed.
Lemma users_parts l b : cost bytes_broadcast USER_OVERHEAD l <= b -> b <= MTU_MAX ->
  Forall2 part_ok (map MUserData l) (map (fun d => blen d + USER_OVERHEAD) l) /\ sumN (map (fun d => blen d + USER_OVERHEAD) l) = cost bytes_broadcast USER_OVERHEAD l.
Proof.
  intros H B. induction l as [|d l IH]; [split; [constructor|reflexivity]|]. unfold cost in *. cbn [fold_right map] in *.
  destruct IH as [IH1 IH2]; [lia|]. split; [constructor; [apply user_part; unfold USER_OVERHEAD, PART_LEN in *; cbn [b_len bytes_broadcast] in *; lia|exact IH1]|].
  unfold sumN in *. cbn [fold_right]. rewrite IH2. reflexivity.
Qed.
Lemma msgs_parts (l : list (N * msg)) b : cost (mbcast C) PART_LEN l <= b -> b <= MTU_MAX ->
  Forall2 part_ok (map snd l) (map (fun x => elen C (snd x) + PART_LEN) l) /\ sumN (map (fun x => elen C (snd x) + PART_LEN) l) = cost (mbcast C) PART_LEN l.
Proof.
  intros H B. induction l as [|d l IH]; [split; [constructor|reflexivity]|]. unfold cost in *. cbn [fold_right map] in *.
  destruct IH as [IH1 IH2]; [lia|]. change (b_len (mbcast C) d) with (elen C (snd d)) in *. split; [constructor; [apply msg_part; lia|exact IH1]|].
  unfold sumN in *. cbn [fold_right]. rewrite IH2. reflexivity.
Qed.
Lemma drain_spec limit e : Forall (wfq bytes_broadcast) (e_ub e) ->
  Forall (wfq bytes_broadcast) (e_ub (fst (drain_user C limit e))) /\ cost bytes_broadcast USER_OVERHEAD (snd (drain_user C limit e)) <= limit.
Proof.
  intros W. unfold drain_user, ub_take.
  pose proof (ub_spec bytes_broadcast (c_lim C (k_n (e_core e))) USER_OVERHEAD limit ltac:(intros; unfold USER_OVERHEAD, PART_LEN; lia) (e_ub e) 0 W ltac:(lia)) as H.
  destruct (ub_take_loop _ _ _ _ _ _) as [[T' sent] used]. destruct H as (_ & W' & E & L & _). cbn [fst snd e_ub e_set_ub].
  split; [exact W'|]. rewrite E, N.add_0_l in L. exact L.
Qed.
Lemma news_not_answer m : news m -> not_answer m.
Proof. destruct m; cbn; tauto. Qed.
Lemma users_not_answer l : Forall not_answer (map MUserData l).
Proof. apply Forall_map, Forall_forall. intros; exact Logic.I. Qed.

(** one gossip batch *)
Definition batch_ok (ms : list msg) : Prop := Forall not_answer ms /\
  (forall m, ms = [m] -> elen C m <= c_mtu C) /\
  ((2 <= length ms)%nat -> forall to, exists b, datagram C (TCompound to ms) = Ok b /\ blen b <= c_mtu C).
Lemma parts_batch (got : list (N * msg)) users : Forall not_answer (map snd got) ->
  cost (mbcast C) PART_LEN got + cost bytes_broadcast USER_OVERHEAD users <= c_mtu C - (TAG_LEN + COUNT_LEN) ->
  batch_ok (map snd got ++ map MUserData users).
Proof.
  intros NA H. pose proof mtu_bounds as [[M1 M2] _]. unfold MTU_MIN, MTU_MAX, TAG_LEN, COUNT_LEN in *.
  destruct (msgs_parts got (c_mtu C) ltac:(lia) M2) as [F1 S1]. destruct (users_parts users (c_mtu C) ltac:(lia) M2) as [F2 S2].
  pose proof (Forall2_app F1 F2) as F. split; [apply Forall_app; split; [exact NA|apply users_not_answer]|]. split.
  - intros m E. rewrite E in F. inversion F as [|? w ? ws [A B] F' X Y]; subst. inversion F'; subst.
    pose proof (sumN_app (map (fun x => elen C (snd x) + PART_LEN) got) (map (fun d => blen d + USER_OVERHEAD) users)) as X. rewrite <- Y in X. cbn in X. lia.
  - intros L to. destruct (compound_fits to _ _ L F) as (b & E & B); rewrite sumN_app, S1, S2 in *; unfold MTU_MAX in *; [lia|]. exists b. split; [exact E|lia].
Qed.
Lemma gossip_ok e : sinv e -> batch_ok (snd (gossip_batch C e)) /\ Forall (wfq bytes_broadcast) (e_ub (fst (gossip_batch C e))).
Proof.
  intros [[W NW] _ U _]. unfold gossip_batch. set (Q := k_bc (e_core e)) in *. set (lim := c_lim C _).
  assert (let '(_, got, used) := take_broadcasts_measured (mbcast C) lim PART_LEN (c_mtu C - (TAG_LEN + COUNT_LEN)) Q in
    forall e1, e_ub e1 = e_ub e ->
    let D := drain_user C (match got with [] => c_mtu C - (TAG_LEN + COUNT_LEN) | _ => c_mtu C - (TAG_LEN + COUNT_LEN) - used end) e1 in
    batch_ok (map snd got ++ map MUserData (snd D)) /\ Forall (wfq bytes_broadcast) (e_ub (fst D))) as K.
  { pose proof (batch_spec (mbcast C) lim PART_LEN (c_mtu C - (TAG_LEN + COUNT_LEN)) Q W) as B.
    destruct (take_broadcasts_measured _ _ _ _ _) as [[Q' got] used]. destruct B as (E & L & rest & P & _). intros e1 E1. cbv zeta.
    rewrite <- E1 in U. destruct (drain_spec (match got with [] => c_mtu C - (TAG_LEN + COUNT_LEN) | _ => c_mtu C - (TAG_LEN + COUNT_LEN) - used end) e1 U) as [U' L'].
    split; [|exact U']. apply parts_batch.
    - apply Forall_map, Forall_forall. intros b I. apply news_not_answer, NW. eapply Permutation_in; [symmetry; exact P|]. apply in_or_app. left. exact I.
    - subst used. destruct got; [cbn [cost fold_right]; lia|]. lia. }
  assert (forall e0, let '(_, got, used) := take_broadcasts_measured (mbcast C) lim PART_LEN (c_mtu C - (TAG_LEN + COUNT_LEN)) Q in
    let e := act C (KTake PART_LEN (c_mtu C - (TAG_LEN + COUNT_LEN))) e0 in e_ub e0 = e_ub (act C (KTake PART_LEN (c_mtu C - (TAG_LEN + COUNT_LEN))) e)) as _ by (intros; destruct (take_broadcasts_measured _ _ _ _ _) as [[? ?] ?]; reflexivity).
  destruct (peek_first_sendable Q (c_mtu C)) as [len|] eqn:PK.
  - destruct (_ <? _).
    + cbn [fst snd]. split; [|exact U]. rewrite (take_one_first (mbcast C) lim (c_mtu C) Q W). unfold peek_first_sendable in PK.
      destruct (find _ (bq_q Q)) as [x|] eqn:F; [|discriminate]. cbn [snd]. apply find_some in F as [I L]. apply N.leb_le in L.
      rewrite (w_len _ _ W x I) in L. change (b_len (mbcast C) (i_b x)) with (elen C (snd (i_b x))) in L.
      split; [constructor; [|constructor]; apply news_not_answer, NW, in_map, I|]. split; [intros m [= <-]; exact L|]. cbn. intros X. lia.
    + destruct (take_broadcasts_measured _ _ _ _ _) as [[Q' got] used].
      pose proof (K (act C (KTake PART_LEN (c_mtu C - (TAG_LEN + COUNT_LEN))) e) eq_refl) as X. destruct (drain_user C _ _) as [e2 us]. exact X.
  - destruct (take_broadcasts_measured _ _ _ _ _) as [[Q' got] used].
    pose proof (K (act C (KTake PART_LEN (c_mtu C - (TAG_LEN + COUNT_LEN))) e) eq_refl) as X. destruct (drain_user C _ _) as [e2 us]. exact X.
Qed.
Lemma batch_sent ms to : batch_ok ms -> Forall sent_ok (gossip_tx ms to).
Proof.
  intros (NA & O & M). unfold gossip_tx. destruct ms as [|a [|b l]]; [constructor| |]; (constructor; [|constructor]).
  - right. apply O. reflexivity.
  - split; [cbn; lia|]. split; [exact NA|]. apply M. cbn. lia.
Qed.
(** the farewell *)
Lemma farewell_ok now fw e : sinv e -> einv C e -> runs e = true -> Forall sent_ok (e_tx (leave_with C now fw e)) /\ Forall (wfq bytes_broadcast) (e_ub (leave_with C now fw e)).
Proof.
  intros SI I R. rewrite (leave_eq C now fw e R). cbv zeta. set (live := live_addrs C (act C (KLeave now) e)). set (dead := MDead _ _ _).
  pose proof mtu_bounds as [[M1 M2] MP]. unfold MTU_MIN, MTU_MAX in *.
  assert (elen C dead <= c_mtu C) as LD.
  { destruct HS as (_ & _ & HD). etransitivity; [apply HD|exact MP]. unfold leave_inc.
    destruct (ki_local _ _ (ei_core _ _ I)) as (m & G & (E & _)). unfold rec_at in G. rewrite G, E, N.max_id. apply (si_inc _ SI). }
  set (P := match live with [] => (_, _) | _ => _ end).
  enough (Forall sent_ok (map (fun to => match snd P with [] => TPacket to dead | _ => TCompound to (map MUserData (snd P) ++ [dead]) end) live) /\
          Forall (wfq bytes_broadcast) (ub_reset (e_ub (fst P)))) as K by (destruct live; exact K).
  split; [|unfold ub_reset; apply Forall_map, Forall_forall; intros; apply wfq_reset].
  apply Forall_map, Forall_forall. intros to _.
  assert (snd P = [] \/ cost bytes_broadcast USER_OVERHEAD [] = 0 /\ exists r l w, snd P = r ++ l /\ Forall2 part_ok (map MUserData r) w /\ sumN w + cost bytes_broadcast USER_OVERHEAD l + (elen C dead + PART_LEN) + 6 <= c_mtu C) as [->|(_ & r & l & w & E & F & L)].
  { unfold P. destruct live; [left; reflexivity|]. unfold farewell_payloads. set (e1 := e_set_tx [] (left_ep C now e)).
    assert (Forall (wfq bytes_broadcast) (e_ub e1)) as U by exact (si_ub _ SI). clearbody e1.
    set (budget := c_mtu C - (TAG_LEN + COUNT_LEN) - (elen C dead + PART_LEN)).
    assert (0 < budget -> budget + (elen C dead + PART_LEN) + 6 <= c_mtu C) as BB by (unfold budget, TAG_LEN, COUNT_LEN; lia). clearbody budget.
    destruct fw as [f|].
    - destruct (N.leb_spec (elen C (MUserData f) + PART_LEN) budget) as [CH|_].
      + destruct (drain_spec (budget - (elen C (MUserData f) + PART_LEN)) e1 U) as [_ L]. destruct (drain_user C _ e1) as [e2 us]. cbn [fst snd] in *.
        right. split; [reflexivity|]. exists [f], us, [elen C (MUserData f) + PART_LEN]. split; [reflexivity|].
        unfold PART_LEN in *. split; [constructor; [apply msg_part; unfold MTU_MAX; lia|constructor]|]. cbn [sumN fold_right]. lia.
      + destruct (N.eqb_spec budget 0); [left; reflexivity|]. destruct (drain_spec budget e1 U) as [_ L].
        right. split; [reflexivity|]. exists [], (snd (drain_user C budget e1)), []. split; [reflexivity|]. split; [constructor|]. cbn [sumN fold_right]. lia.
    - destruct (N.eqb_spec budget 0); [left; reflexivity|]. destruct (drain_spec budget e1 U) as [_ L].
      right. split; [reflexivity|]. exists [], (snd (drain_user C budget e1)), []. split; [reflexivity|]. split; [constructor|]. cbn [sumN fold_right]. lia. }
  - right. exact LD.
  - rewrite E. destruct (r ++ l) as [|x y] eqn:RL; [right; exact LD|]. rewrite <- RL. clear E.
    destruct (users_parts l (c_mtu C) ltac:(lia) M2) as [F2 S2].
    pose proof (Forall2_app F F2) as F3. rewrite <- map_app in F3.
    pose proof (Forall2_app F3 (Forall2_cons _ _ (msg_part dead ltac:(unfold MTU_MAX; lia)) (Forall2_nil _))) as F4.
    assert (2 <= length (map MUserData (r ++ l) ++ [dead]))%nat as LL by (rewrite RL, app_length; cbn; lia).
    split; [exact LL|]. split; [apply Forall_app; split; [apply users_not_answer|constructor; [exact Logic.I|constructor]]|].
    destruct (compound_fits to _ _ LL F4) as (b & E & B); rewrite !sumN_app, S2 in *; cbn [sumN fold_right] in *; unfold MTU_MAX in *; [lia|]. exists b. split; [exact E|lia].
Qed.
Lemma just_sent t : just C t -> sent_ok t.
Proof.
  intros [to m NA L|to ms L NA A]; [right; exact L|]. split; [exact L|]. split; [exact NA|].
  pose proof mtu_bounds as [[M1 M2] _].
  assert (forall l a, fold_left (fun a m => a + (PART_LEN + elen C m)) l a = a + sumN (map (fun m => elen C m + PART_LEN) l)) as E.
  { induction l as [|m l IH]; intros a; cbn [fold_left map]; [unfold sumN; cbn; lia|]. rewrite IH. unfold sumN. cbn [fold_right]. lia. }
  unfold assembled in A. rewrite E in A. unfold TAG_LEN, COUNT_LEN in A.
  assert (Forall2 part_ok ms (map (fun m => elen C m + PART_LEN) ms)) as F.
  { clear L NA E. assert (sumN (map (fun m => elen C m + PART_LEN) ms) <= MTU_MAX) as B by (unfold MTU_MAX in *; lia). clear A.
    induction ms as [|m ms IH]; [constructor|]. unfold sumN in *. cbn [map fold_right] in *. constructor; [apply msg_part; lia|apply IH; lia]. }
  destruct (compound_fits to _ _ L F) as (b & X & B); unfold MTU_MAX in *; [lia|]. exists b. split; [exact X|lia].
Qed.
Lemma upd_nth_forall {A} (P : A -> Prop) f l : forall n, (forall a, P a -> P (f a)) -> Forall P l -> Forall P (upd_nth n f l).
Proof.
  induction l as [|a l IH]; intros n H F; destruct n; cbn; try constructor; inversion F; subst; auto.
Qed.
Lemma sinv_step e ls cr e' : einv C e -> estep C e ls cr e' -> sinv e -> sinv e'.
Proof.
  intros I S SI. destruct HS as (HE & _).
  assert (gq C (e_core e')) as Q by (rewrite (estep_core C _ _ _ _ S); apply gq_run; [exact HE|apply (ei_core _ _ I)|apply (si_bc _ SI)]).
  assert (k_inc (e_core e') <= u32_max) as QI by (rewrite (estep_core C _ _ _ _ S); apply inc_run; [apply (ei_core _ _ I)|apply (si_inc _ SI)]).
  enough (Forall (wfq bytes_broadcast) (e_ub e') /\ Forall sent_ok (e_tx e')) as [A B] by (constructor; assumption).
  clear Q QI. pose proof (si_ub _ SI) as U. pose proof (si_tx _ SI) as T. destruct S; try (split; assumption).
  - destruct (fail_rest C s now e) as (_ & _ & -> & _ & _ & -> & _). auto.
  - destruct H as (_ & _ & _ & _ & _ & -> & _). rewrite H0. auto.
  - split; [|exact T]. cbn. apply upd_nth_forall; [|exact U]. intros q. apply wfq_queue.
    unfold user_limit in H0. pose proof mtu_bounds as [[_ M] _]. cbn [b_len bytes_broadcast]. unfold MTU_MAX, u64_max in *. lia.
  - split; [exact U|]. cbn. apply Forall_app. split; [exact T|]. constructor; [apply just_sent; assumption|constructor].
  - split; [exact U|]. cbn. apply Forall_app. split; [exact T|]. constructor; [left; destruct H0; reflexivity|constructor].
  - destruct (gossip_ok e SI) as [B W]. destruct (gossip_rest C e) as (_ & _ & _ & _ & _ & E & _).
    destruct (gossip_batch C e) as [g ms]. cbn [fst snd] in *. split; [exact W|]. cbn. rewrite E. apply Forall_app. split; [exact T|].
    apply Forall_flat_map, Forall_forall. intros to _. apply batch_sent, B.
  - split; [exact U|]. cbn. apply Forall_app. split; [exact T|]. constructor; [left; destruct H1; reflexivity|constructor].
  - destruct (farewell_ok now fw e SI I H). auto.
  - pose proof (poll_rest C e) as X. cbv zeta in X. destruct X as (_ & _ & _ & _ & _ & _ & _ & _ & _ & _ & _ & -> & _).
    split; [|destruct T; [constructor|assumption]]. unfold poll_transmit. destruct (e_tx e); [exact U|]. cbn. destruct (e_flush e); [|exact U]. destruct (_ <=? _); exact U.
Qed.
Lemma sinv_steps e ls cr e' : esteps C e ls cr e' -> einv C e -> sinv e -> sinv e'.
Proof. induction 1; intros I SI; [exact SI|]. apply IHesteps; [eapply einv_step; eauto|eapply sinv_step; eauto]. Qed.
Lemma sinv_op e o : einv C e -> sinv e -> sinv (fst (ep_step C e o)).
Proof. intros I SI. destruct (step_chain C e o I) as (ls & cr & S & _). eapply sinv_steps; eauto. Qed.
Lemma sinv_run os e : einv C e -> sinv e -> sinv (fst (ep_run C e os)).
Proof.
  rewrite ep_run_fst. revert e. induction os as [|o os IH]; intros e I SI; [exact SI|]. cbn [fold_left]. apply IH; [apply einv_op, I|apply sinv_op; assumption].
Qed.
Lemma sinv_new t0 e : c_inc0 C <= u32_max -> ep_new C t0 = Some e -> sinv e.
Proof.
  intros HI H. unfold ep_new in H. rewrite HC in H. apply Some_inj in H. subst e. unfold refresh_cache.
  match goal with |- sinv (if _ then ?x else _) => assert (sinv x) as K end.
  { constructor; cbn.
    - apply gq_new, HS.
    - exact HI.
    - unfold ub_new. apply Forall_forall. intros q Q. apply repeat_spec in Q. subst q. apply wfq_new.
    - constructor. }
  destruct (_ && _); [exact K|]. destruct K. constructor; assumption.
Qed.
End Sent.
