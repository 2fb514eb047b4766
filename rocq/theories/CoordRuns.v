(** The coordinator between calls: what holds after every call of the driver. *)
From Verif Require Import CodecModel.
From Verif Require Import Base MapModel MapFacts CoreModel CoreFacts EndpointModel EndpointInv EndpointRuns StreamFacts BridgeModel BridgeFacts CoordModel CoordFacts.
Local Open Scope N_scope.

Section Runs.
Context (C : cfg) (Q : qcfg) (W : wcodec) (B : backends) (rnd : N -> N -> option bytes).
Local Notation qinv := (qinv C).
Local Notation near := (near C).
Local Notation adv := (adv C).

(** ** What the steps leave as it was *)
Definition exsub (q q' : coord) : Prop := forall x m', aget x (q_ex q') = Some m' -> exists m, aget x (q_ex q) = Some m /\ x_outbound m = x_outbound m'.
Lemma exsub_refl q : exsub q q.
Proof. intros x m H. eauto. Qed.
Lemma exsub_trans a b c : exsub a b -> exsub b c -> exsub a c.
Proof. intros H1 H2 x m G. destruct (H2 x m G) as (m1 & G1 & E1). destruct (H1 x m1 G1) as (m2 & G2 & E2). exists m2. split; [exact G2|congruence]. Qed.
Lemma near_exsub x q q' : near x q q' -> (forall m', aget x (q_ex q') = Some m' -> exists m, aget x (q_ex q) = Some m /\ x_outbound m = x_outbound m') -> exsub q q'.
Proof.
  intros (_ & _ & SY & _) H y m' G. destruct (N.eq_dec y x) as [->|NE]; [auto|]. exists m'. split; [|reflexivity].
  change (sl_m (sl y q) = Some m'). rewrite <- SY by exact NE. exact G.
Qed.
Lemma near_ex x q q' : near x q q' -> sl_m (sl x q') = sl_m (sl x q) -> exsub q q'.
Proof. intros NR E. eapply near_exsub; [exact NR|]. intros m' G. exists m'. split; [|reflexivity]. change (sl_m (sl x q) = Some m'). now rewrite <- E. Qed.
Lemma adel_sub x q m' : aget x (adel x (q_ex q)) = Some m' -> exists m, aget x (q_ex q) = Some m /\ x_outbound m = x_outbound m'.
Proof. rewrite aget_adel_eq. discriminate. Qed.

Lemma pump_frame w U D P now q x : qinv w U (x :: D) P q -> let q' := pump_one C W B rnd now q x in
  exsub q q' /\ q_dirty q' = q_dirty q /\ q_unminted q' = q_unminted q.
Proof.
  intros I q'. unfold q', pump_one. destruct (aget x (q_conns q)) as [b0|] eqn:G; [|split; [apply exsub_refl|auto]].
  destruct (live_of _ _ _ _ _ _ _ _ I G) as (m & side & M & L). destruct L. clear - xl_b M.
  set (q1 := q_set_conns (adel x (q_conns q)) q). set (b1 := br_pump_out B rnd now (br_replay W B now b0)).
  assert (NR : near x q q1) by apply near_take. assert (M1 : aget x (q_ex q1) = Some m) by exact M. assert (S1 : sl_m (sl x q1) = sl_m (sl x q)) by reflexivity.
  assert (I1 : binv side b1) by (apply pump_out_inv, (replay_inv W B rnd); exact xl_b). assert (PO : pumped_out now b1) by (eapply pump_out_post, (replay_inv W B rnd); exact xl_b).
  clearbody q1 b1. clear xl_b.
  assert (REAP : forall q2 b, near x q q2 -> aget x (q_ex q2) = Some m -> binv side b -> br_terminal b = true ->
     let q3 := let '(b', q') := drained x (br_drain_reap C W B rnd now b (q_ep q2)) q2 in reap C x b' q' in exsub q q3 /\ q_dirty q3 = q_dirty q /\ q_unminted q3 = q_unminted q).
  { intros q2 b NR2 M2 IB T. pose proof (drain_reap_spec C W B rnd side now b (q_ep q2) IB T) as DR.
    destruct (br_drain_reap C W B rnd now b (q_ep q2)) as [[b' e'] l']. destruct DR as (EE & _).
    destruct (near_drained C x b' e' l' q2 EE) as (ND & _ & SX). destruct (drained x (b', e', l') q2) as [b2 q3]. cbn [fst snd] in *.
    assert (M3 : aget x (q_ex q3) = Some m) by (change (sl_m (sl x q3) = Some m); now rewrite SX).
    destruct (reap_spec C x b2 m q3 M3) as (_ & _ & _ & EX & _).
    pose proof (near_trans C _ _ _ _ NR2 (near_trans C _ _ _ _ ND (near_reap C x b2 m q3 M3))) as NR4. destruct (near_gl C _ _ _ NR4) as (_ & E2 & _ & E4 & _).
    split; [|split; [exact E2|exact E4]]. eapply near_exsub; [exact NR4|]. intros m' Y. rewrite EX, aget_adel_eq in Y. discriminate. }
  destruct (br_terminal b1) eqn:T1; [now apply REAP|].
  pose proof (drain_payload_spec C W B rnd side now b1 (q_ep q1) I1 PO T1) as DP.
  destruct (br_drain_payload C W B rnd now b1 (q_ep q1)) as [[b2 e2] l2]. destruct DP as (EE & I2 & _).
  destruct (near_drained C x b2 e2 l2 q1 EE) as (ND & FB & SX). destruct (drained x (b2, e2, l2) q1) as [b2' q2]. cbn [fst snd] in *. subst b2'.
  pose proof (near_trans C _ _ _ _ NR ND) as NR2. assert (M2 : aget x (q_ex q2) = Some m) by (change (sl_m (sl x q2) = Some m); rewrite SX; exact M1).
  destruct (br_terminal b2) eqn:T2; [now apply REAP|]. clear REAP. destruct (near_gl C _ _ _ NR2) as (_ & E2 & _ & E4 & _).
  unfold maybe_shutdown. rewrite M2. assert (X2 : exsub q q2) by (eapply near_ex; [exact NR2|]; change (aget x (q_ex q2) = aget x (q_ex q)); congruence).
  destruct (negb (br_fin b2)); [split; [exact X2|auto]|]. destruct (x_fin m); [split; [exact X2|auto]|]. split; [|auto].
  intros y m' Y. cbn in Y. destruct (N.eq_dec y x) as [->|NE].
  - rewrite aget_aset_eq in Y. injection Y as <-. cbn. eauto.
  - rewrite aget_aset_ne in Y by exact NE. now apply X2.
Qed.
Definition calm (now : N) (w : watch) : Prop := w_late w = None \/ w_late w = Some now.
Lemma pump_all_frame w U P now q : calm now w -> qinv w U [] P q -> let q' := pump_all C W B rnd now q in
  exsub q q' /\ q_dirty q' = [] /\ q_unminted q' = q_unminted q.
Proof.
  intros LA I. unfold pump_all. assert (qinv w U (q_dirty q) P (q_set_dirty [] q)) as I1.
  { destruct I. constructor; auto. intros x L. cbn. rewrite app_nil_r. apply (qi_x x L). }
  cut (forall D q1, qinv w U D P q1 -> q_dirty q1 = [] -> let q' := fold_left (pump_one C W B rnd now) D q1 in exsub q1 q' /\ q_dirty q' = [] /\ q_unminted q' = q_unminted q1).
  { intros H. apply (H _ _ I1 eq_refl). }
  clear - LA. intros D. induction D as [|x D IH]; intros q1 I1 E; [split; [apply exsub_refl|auto]|]. cbn [fold_left].
  destruct (pump_frame _ _ _ _ now _ _ I1) as (X & E1 & E2). destruct (IH (pump_one C W B rnd now q1 x)) as (X' & E1' & E2').
  - now apply pump_one_ok.
  - now rewrite E1.
  - split; [eapply exsub_trans; eauto|]. split; [exact E1'|congruence].
Qed.
Lemma collect_frame q x : let q' := collect_one q x in q_ex q' = q_ex q /\ q_dirty q' = q_dirty q /\ q_unminted q' = q_unminted q /\ q_pumped q' = q_pumped q.
Proof.
  unfold collect_one, collect. destruct (aget x (q_conns q)) as [b|]; [|auto]. cbn [q_set_conns q_ex]. destruct (aget x (q_ex q)); [|auto].
  destruct (rl_transmit (br_rec b)) as [r [|]]; auto.
Qed.
Lemma collect_all_frame q : let q' := collect_all q in q_ex q' = q_ex q /\ q_dirty q' = q_dirty q /\ q_unminted q' = q_unminted q /\ q_pumped q' = [].
Proof.
  unfold collect_all. cut (forall P q1, q_pumped q1 = [] -> let q' := fold_left collect_one P q1 in q_ex q' = q_ex q1 /\ q_dirty q' = q_dirty q1 /\ q_unminted q' = q_unminted q1 /\ q_pumped q' = []).
  { intros H. apply (H (q_pumped q) (q_set_pumped [] q) eq_refl). }
  clear. intros P. induction P as [|x P IH]; intros q1 E; [auto|]. cbn [fold_left]. destruct (collect_frame q1 x) as (A1 & A2 & A3 & A4).
  destruct (IH (collect_one q1 x)) as (B1 & B2 & B3 & B4); [congruence|]. repeat split; congruence.
Qed.

(** every exchange not yet minted was accepted, not dialled *)
Definition inb (q : coord) : Prop := forall x m, In x (q_unminted q) -> aget x (q_ex q) = Some m -> x_outbound m = false.
Lemma inb_sub q q' : exsub q q' -> q_unminted q' = q_unminted q -> inb q -> inb q'.
Proof. intros X E H x m J G. rewrite E in J. destruct (X x m G) as (m0 & G0 & E0). rewrite <- E0. eauto. Qed.
Lemma mint_frame w U D P now q x : qinv w (x :: U) D P q -> inb q -> inb (mint_one C W now q x).
Proof.
  intros I H. unfold mint_one. destruct (aget x (q_conns q)) as [b|] eqn:G; [|exact H]. destruct (br_terminal b) eqn:T; [exact H|].
  destruct (live_of _ _ _ _ _ _ _ _ I G) as (m & side & M & L). destruct (br_handshaking b) eqn:HS.
  - intros y m' J Y. cbn in J, Y. apply (in_oset rnd) in J. destruct J as [->|J]; [|eapply H; eauto]. rewrite M in Y. injection Y as <-.
    rewrite (xl_out _ _ _ _ _ _ _ _ _ _ L). destruct side as [k|]; [|reflexivity]. exfalso. destruct (bi_dialer _ _ (xl_b _ _ _ _ _ _ _ _ _ _ L)) as (R & _); [discriminate|].
    unfold br_handshaking in HS. destruct (br_phase b); [|discriminate]. unfold rl_is_handshaking, is_validating in HS. rewrite R in HS. destruct (g_label _); discriminate.
  - rewrite M. clear L. set (q1 := mark_dirty x (q_set_ex (aset x (x_set_mint None m) (q_ex q)) q)).
    assert (H1 : exsub q q1). { intros y m' Y. cbn in Y. destruct (N.eq_dec y x) as [->|NE]; [rewrite aget_aset_eq in Y; injection Y as <-; eauto|rewrite aget_aset_ne in Y by exact NE; eauto]. }
    assert (U1 : q_unminted q1 = q_unminted q) by reflexivity. assert (M1 : aget x (q_ex q1) = Some (x_set_mint None m)) by (cbn; apply aget_aset_eq). clearbody q1.
    assert (CL : forall o, let q2 := fst (call C (Some x) o q1) in q_ex q2 = q_ex q1 /\ q_unminted q2 = q_unminted q1) by (intros o; rewrite call_eq; auto).
    assert (PR : forall q2 st, q_ex q2 = q_ex q1 -> q_unminted q2 = q_unminted q1 -> inb (promote_in x st q2)).
    { intros q2 st X2 U2. unfold promote_in. destruct (aget x (q_conns q2)).
      - eapply inb_sub with (q := q); [|cbn; congruence|exact H]. intros y m' Y. cbn in Y. rewrite X2 in Y. now apply H1.
      - eapply inb_sub with (q := q); [|congruence|exact H]. intros y m' Y. rewrite X2 in Y. now apply H1. }
    destruct (x_mint m) as [[sid|from]|].
    + destruct (CL (EDialOk sid now)) as (X2 & U2). destruct (call C (Some x) (EDialOk sid now) q1) as [q2 outs]. cbn [fst] in *.
      assert (RT : inb (retire_dial C x q2)).
      { destruct (retire_spec C x (x_set_mint None m) q2) as (NR & SX); [now rewrite X2|]. destruct (near_gl C _ _ _ NR) as (_ & _ & _ & E4 & _).
        eapply inb_sub with (q := q); [|congruence|exact H]. eapply exsub_trans; [exact H1|]. eapply exsub_trans with (b := q2); [intros y m' Y; rewrite X2 in Y; eauto|].
        eapply near_exsub; [exact NR|]. intros m' Y. change (sl_m (sl x (retire_dial C x q2)) = Some m') in Y. rewrite SX in Y. discriminate. }
      destruct outs as [|[] [|]]; auto; destruct req as [[]|]; auto.
    + destruct (CL (EAccept from now)) as (X2 & U2). destruct (call C (Some x) (EAccept from now) q1) as [q2 outs]. cbn [fst] in *.
      assert (RT : inb (cancel x q2)).
      { destruct (cancel_spec C x q2) as (NR & SX). destruct (near_gl C _ _ _ NR) as (_ & _ & _ & E4 & _).
        eapply inb_sub with (q := q); [|congruence|exact H]. eapply exsub_trans; [exact H1|]. eapply exsub_trans with (b := q2); [intros y m' Y; rewrite X2 in Y; eauto|].
        eapply near_exsub; [exact NR|]. intros m' Y. change (sl_m (sl x (cancel x q2)) = Some m') in Y. rewrite SX in Y. discriminate. }
      destruct outs as [|[] [|]]; auto; destruct req as [[]|]; auto.
    + exact (inb_sub q _ (exsub_refl _) eq_refl H).
Qed.
Lemma mint_all_frame w D P now q : qinv w [] D P q -> inb (mint_all C W now q).
Proof.
  intros I. unfold mint_all. assert (qinv w (q_unminted q) D P (q_set_unminted [] q)) as I1.
  { destruct I. constructor; auto; cbn; rewrite ?app_nil_r; auto. }
  assert (H1 : inb (q_set_unminted [] q)) by (intros x m []).
  revert I1 H1. generalize (q_set_unminted [] q) as q1. generalize (q_unminted q) as U. induction U as [|x U IH]; intros q1 I1 H1; [exact H1|].
  cbn [fold_left]. apply IH; [now apply mint_one_ok|eapply mint_frame; eauto].
Qed.

(** ** Between calls *)
Record settled (q : coord) : Prop := {
  st_pumped : q_pumped q = [];
  st_dirty : forall x b, In x (q_dirty q) -> aget x (q_conns q) = Some b -> br_failed b = true;
  st_low : forall x, In x (q_dirty q) -> x < q_next q;
  st_inb : inb q }.
Definition qok (w : watch) (q : coord) : Prop := qinv w [] [] [] q /\ settled q.
Lemma flush_settled w now q : calm now w -> qinv w [] [] [] q -> settled (flush C W B rnd now q) /\ q_dirty (flush C W B rnd now q) = [].
Proof.
  intros LA I. unfold flush. assert (I1 := pump_all_ok C W B rnd w [] [] now q LA I). assert (I2 := mint_all_ok C W rnd w [] [] now _ I1).
  pose proof (mint_all_frame w [] [] now _ I1) as H. destruct (pump_all_frame w [] [] now _ LA I2) as (X & E1 & E2).
  destruct (collect_all_frame (pump_all C W B rnd now (mint_all C W now (pump_all C W B rnd now q)))) as (A1 & A2 & A3 & A4). split; [|congruence].
  constructor; [exact A4| | |].
  - intros x b J. rewrite A2, E1 in J. contradiction.
  - intros x J. rewrite A2, E1 in J. contradiction.
  - eapply inb_sub; [|exact A3|eapply inb_sub; [exact X|exact E2|exact H]]. intros y m Y. rewrite A1 in Y. eauto.
Qed.
Lemma tick_settled w now q : calm now w -> qinv w [] [] [] q -> settled (tick C Q W B rnd now q) /\ q_dirty (tick C Q W B rnd now q) = [].
Proof.
  intros LA I. unfold tick. set (q1 := dial_all C Q now _).
  assert (I1 : qinv w [] [] [] q1). { unfold q1. apply dial_all_ok; [exact rnd|]. apply mint_all_ok; [exact rnd|]. apply call_none_ok; [exact rnd|]. now apply pump_all_ok. }
  clearbody q1. assert (I2 := mint_all_ok C W rnd w [] [] now _ I1).
  pose proof (mint_all_frame w [] [] now _ I1) as H. destruct (pump_all_frame w [] [] now _ LA I2) as (X & E1 & E2).
  destruct (collect_all_frame (pump_all C W B rnd now (mint_all C W now q1))) as (A1 & A2 & A3 & A4). split; [|cbn; congruence].
  constructor; cbn [q_set_pol q_pumped q_dirty q_conns]; [exact A4| | |].
  - intros x b J. rewrite A2, E1 in J. contradiction.
  - cbn. intros x J. rewrite A2, E1 in J. contradiction.
  - eapply inb_sub with (q := mint_all C W now q1); [|cbn; congruence|exact H]. eapply exsub_trans; [exact X|]. intros y m Y. cbn in Y. rewrite A1 in Y. eauto.
Qed.
Lemma flush_qok w now q : calm now w -> qinv w [] [] [] q -> qok w (flush C W B rnd now q).
Proof. intros LA I. split; [now apply flush_ok|now apply (flush_settled w)]. Qed.
Lemma tick_qok w now q : calm now w -> qinv w [] [] [] q -> qok w (tick C Q W B rnd now q).
Proof. intros LA I. split; [now apply tick_ok|now apply (tick_settled w)]. Qed.
End Runs.
