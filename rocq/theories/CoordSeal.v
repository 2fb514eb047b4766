(** What a stream coordinator sends is made of label headers and of units sealed
    under the encryption options in force. *)
From Coq Require Import Permutation.
From Verif Require Import CodecModel.
From Verif Require Import Base BaseFacts MapFacts CoreFacts EndpointInv EndpointHist EndpointDetect EndpointOutcome BridgeFacts CoordModel CoordFacts CoordRuns CoordSteps CoordFrame CoordClaims.
Local Open Scope N_scope.

Section Seal.
Context (C : cfg) (Q : qcfg) (W : wcodec) (B : backends) (rnd : N -> N -> option bytes).

(** a piece: the header of the label, or the length of a payload as the
    encryption leaves it and the payload *)
Definition piece (kr : option keyring) (u : bytes) : Prop :=
  (exists l, qc_label Q = Some l /\ u = 12 :: blen l mod 256 :: l) \/
  (exists nonce body p, encrypt_payload B kr nonce body = Ok p /\ u = encode_varint_u32 (blen p mod two32) ++ p).
Definition clean (kr : option keyring) (bs : bytes) : Prop := exists us, bs = concat us /\ Forall (piece kr) us.
Lemma clean_nil kr : clean kr [].
Proof. exists []. auto. Qed.
Lemma clean_app kr a b : clean kr a -> clean kr b -> clean kr (a ++ b).
Proof. intros (us & -> & U) (vs & -> & V). exists (us ++ vs). rewrite concat_app. split; [reflexivity|now apply Forall_app]. Qed.
Lemma clean_one kr u : piece kr u -> clean kr u.
Proof. intros P. exists [u]. cbn. rewrite app_nil_r. auto. Qed.

Record rok (kr : option keyring) (r : rlayer) : Prop := {
  ro_label : g_label (r_gate r) = effective_label (qc_label Q);
  ro_pre : clean kr (g_prefix (r_gate r));
  ro_out : clean kr (r_out r) }.
Lemma label_clean kr l : effective_label (qc_label Q) = Some l -> clean kr (encode_label_prefix l).
Proof. intros E. apply clean_one. left. exists l. split; [|reflexivity]. unfold effective_label in E. destruct (qc_label Q) as [[|]|]; congruence. Qed.
Lemma queue_ok kr g : g_label g = effective_label (qc_label Q) -> clean kr (g_prefix g) ->
  g_label (queue_outbound_prefix_if_needed g) = effective_label (qc_label Q) /\ clean kr (g_prefix (queue_outbound_prefix_if_needed g)).
Proof.
  intros L P. unfold queue_outbound_prefix_if_needed. destruct (g_queued g); [auto|]. cbn [g_label g_prefix]. split; [exact L|].
  destruct (g_label g) as [l|] eqn:E; [|exact P]. apply clean_app; [exact P|apply label_clean; congruence].
Qed.
Lemma flush_ok kr r : rok kr r -> rok kr (flush_outbound_label r).
Proof.
  intros [L P O]. unfold flush_outbound_label. destruct (r_emitted r); [now constructor|]. unfold take_outbound_prefix. destruct (g_prefix (r_gate r)) as [|b p] eqn:E.
  - constructor; cbn; auto using clean_nil.
  - constructor; cbn [r_gate r_out g_label g_prefix]; auto using clean_nil. now apply clean_app.
Qed.
Lemma consume_ok kr g chunk : g_label g = effective_label (qc_label Q) -> clean kr (g_prefix g) ->
  g_label (fst (consume_inbound g chunk)) = effective_label (qc_label Q) /\ clean kr (g_prefix (fst (consume_inbound g chunk))).
Proof.
  intros L P. unfold consume_inbound. destruct (g_label g) as [l|] eqn:E; [|apply queue_ok; auto].
  destruct (classify_header _ _ _); cbn [fst]; [apply queue_ok; auto| |]; cbn; auto.
Qed.
Lemma feed_ok kr r i : rok kr r -> rok kr (fst (rl_feed r i)).
Proof.
  intros [L P O]. unfold rl_feed. cbn [r_gate]. destruct (g_validated (r_gate r)); [now constructor|]. unfold consume_inbound_label. cbn [r_in r_gate r_out r_emitted r_tail].
  destruct (r_in r ++ i) as [|b l]; [now constructor|]. destruct (consume_ok kr (r_gate r) (b :: l) L P) as (L' & P'). destruct (consume_inbound _ _) as [g []]; cbn [fst] in *; [|apply flush_ok|]; now constructor.
Qed.
Lemma read_ok kr r : rok kr r -> rok kr (fst (rl_read r)).
Proof. intros [L P O]. now constructor. Qed.

(** A bridge: its keys, its record layer, and nothing kept once failed *)
Record okb (kr : option keyring) (b : bridge) : Prop := {
  ob_kr : br_kr b = kr;
  ob_rec : rok kr (br_rec b);
  ob_failed : br_failed b = true -> r_out (br_rec b) = [] /\ g_prefix (r_gate (br_rec b)) = [] }.
(** okb looks at three fields only *)
Definition same3 (b b' : bridge) : Prop := br_kr b' = br_kr b /\ br_rec b' = br_rec b /\ br_phase b' = br_phase b.
Lemma okb_same kr b b' : same3 b b' -> okb kr b -> okb kr b'.
Proof. intros (E1 & E2 & E3) [K R F]. constructor; [congruence|now rewrite E2|]. unfold br_failed in *. now rewrite E2, E3. Qed.
Lemma okb_rec kr b r : br_failed b = false -> rok kr r -> okb kr b -> okb kr (br_set_rec r b).
Proof. intros NF R [K _ _]. constructor; [exact K|exact R|]. cbn. unfold br_failed in *. cbn. congruence. Qed.
Lemma okb_live kr b p : (forall r, p <> BEst (LFailed r)) -> okb kr b -> okb kr (br_set_phase p b).
Proof. intros NF [K R F]. constructor; [exact K|exact R|]. unfold br_failed. cbn. destruct p as [|[]]; try discriminate. now destruct (NF r). Qed.
Lemma fail_okb kr r b : okb kr b -> okb kr (br_fail r b).
Proof.
  intros K. unfold br_fail. destruct (br_failed b) eqn:F; [exact K|]. cbv zeta.
  assert (E : forall b1, same3 b b1 -> okb kr (br_set_phase (BEst (LFailed r)) (br_set_rec (rl_clear_outbound (br_rec b1)) b1))).
  { intros b1 (E1 & E2 & _). destruct K as [KK [L P O] _]. constructor; cbn; [congruence| |auto]. rewrite E2. constructor; cbn; auto using clean_nil. }
  apply E. destruct (br_phase b) as [|[]] eqn:PH; try (repeat split; assumption); destruct (br_stream b); repeat split; assumption.
Qed.
Lemma retire_okb kr b : okb kr b -> okb kr (br_retire b).
Proof. intros [K R F]. constructor; [exact K|now apply (read_ok kr (br_rec b))|exact F]. Qed.
Lemma fr_okb kr r b : okb kr b -> okb kr (br_fail_retire r b).
Proof. intros K. now apply fail_okb, retire_okb. Qed.
Lemma finish_okb kr s b : okb kr b -> okb kr (br_finish s b).
Proof.
  intros K. unfold br_finish. destruct (_ && _); [|exact K]. unfold br_send_fin. cbn [br_phase br_set_fin].
  assert (K' : okb kr (br_set_fin true b)) by (apply (okb_same kr b); [repeat split|exact K]).
  destruct (br_phase b) as [|[]]; try exact K'; apply okb_live; try discriminate; exact K'.
Qed.
Lemma recv_okb kr b : okb kr b -> okb kr (br_recv_fin b).
Proof. intros K. unfold br_recv_fin. destruct (br_phase b) as [|[]]; try exact K; apply okb_live; try discriminate; exact K. Qed.
Lemma unit_piece kr now id body b u : br_kr b = kr -> br_unit B rnd now id body b = Some u -> piece kr u.
Proof. intros K. unfold br_unit. rewrite K. destruct (encrypt_payload B kr _ _) as [p|] eqn:E; [|discriminate]. intros [= <-]. right. eauto. Qed.
Lemma write_okb kr u b : br_failed b = false -> piece kr u -> okb kr b -> okb kr (br_set_rec (rl_write (br_rec b) u) b).
Proof. intros NF P K. apply okb_rec; [exact NF| |exact K]. destruct K as [_ [L PP O] _]. constructor; cbn; auto. apply clean_app; [exact O|now apply clean_one]. Qed.
Lemma out_okb kr now b : okb kr b -> okb kr (br_pump_out B rnd now b).
Proof.
  intros K. unfold br_pump_out. destruct (match br_phase b with BHandshaking => _ | _ => _ end); [now apply fail_okb|]. destruct (br_stream b) as [s|]; [|exact K].
  destruct (br_failed b) eqn:F; cbn [orb]; [now apply fr_okb|]. destruct (s_failed s); [now apply fr_okb|]. destruct (_ && _); [now apply fr_okb|].
  destruct (s_transmit now s) as [s' ch]. assert (K' : okb kr (br_set_stream (Some s') b)) by (apply (okb_same kr b); [repeat split|exact K]).
  destruct ch as [|c ch]; [destruct (s_failed s'); [now apply fr_okb|now apply finish_okb]|].
  assert (K2 : okb kr (br_set_sent true (br_set_stream (Some s') b))) by (apply (okb_same kr b); [repeat split|exact K]).
  destruct (br_unit _ _ _ _ _ _) as [u|] eqn:U; [|now apply fr_okb]. apply finish_okb, write_okb; [exact F| |exact K2]. eapply unit_piece; [|exact U]. apply K2.
Qed.
Lemma units_same n : forall now s b, same3 b (fst (fst (br_units W B n now s b))).
Proof.
  induction n as [|n IH]; intros now s b; [repeat split|]. cbn [br_units]. destruct (take_reliable_unit _ _ _ _) as [[[pt m]|]|]; try (repeat split; fail).
  destruct (s_handle_data W pt now s) as [s' [er|]]; [repeat split|]. destruct (IH now s' (br_set_accum (bdrop m (br_accum b)) b)) as (E1 & E2 & E3). repeat split; assumption.
Qed.
Lemma in_okb kr input eof now s b : okb kr b -> okb kr (br_pump_in W B input eof now s b).
Proof.
  intros K. unfold br_pump_in. destruct (br_terminal b) eqn:T; [exact K|]. assert (F : br_failed b = false) by (unfold br_terminal in T; unfold br_failed; destruct (br_phase b) as [|[]]; auto; discriminate).
  pose proof (feed_ok kr (br_rec b) input (ob_rec _ _ K)) as R. destruct (rl_feed (br_rec b) input) as [r rej]. cbn [fst] in R. assert (K1 : okb kr (br_set_rec r b)) by now apply okb_rec.
  destruct rej; [now apply fr_okb|]. cbn [rl_read br_rec br_set_rec].
  set (b2 := br_set_accum _ _). assert (K2 : okb kr b2).
  { apply (okb_same kr (br_set_rec (fst (rl_read r)) b)); [repeat split|]. apply okb_rec; [exact F|now apply read_ok|exact K]. }
  clearbody b2. pose proof (units_same (S (length (br_accum b2))) now s b2) as U. destruct (br_units W B (S (length (br_accum b2))) now s b2) as [[b3 s3] i]. cbn [fst] in U.
  assert (K3 : okb kr b3) by now apply (okb_same kr b2). clear K2 U.
  assert (ST : forall o, okb kr (br_set_stream o b3)) by (intros o; apply (okb_same kr b3); [repeat split|exact K3]).
  destruct i; [|now apply fr_okb|now apply fr_okb]. destruct eof; cbn [negb]; [|apply ST]. destruct (br_accum (br_set_stream (Some s3) b3)); [|now apply fr_okb].
  destruct (s_handle_data W [] now s3) as [s4 [er|]]; [apply fr_okb|apply recv_okb]; (apply (okb_same kr b3); [repeat split|exact K3]).
Qed.
Lemma data_okb kr data now b : okb kr b -> okb kr (br_data W B data now b).
Proof.
  intros K. unfold br_data. destruct (br_terminal b) eqn:T; [exact K|]. assert (F : br_failed b = false) by (unfold br_terminal in T; unfold br_failed; destruct (br_phase b) as [|[]]; auto; discriminate).
  assert (IH : forall d b1, br_failed b1 = false -> okb kr b1 -> okb kr (br_intake_handshaking d b1)).
  { intros d b1 F1 K1. unfold br_intake_handshaking. pose proof (feed_ok kr (br_rec b1) d (ob_rec _ _ K1)) as R. destruct (rl_feed (br_rec b1) d) as [r rej]. cbn [fst] in R. destruct rej; [apply fail_okb|]; now apply okb_rec. }
  destruct (br_stream b) as [s|]; [now apply in_okb|]. destruct data; [|now apply IH]. destruct (rl_is_handshaking _); [now apply fail_okb|]. apply IH; [exact F|]. apply (okb_same kr b); [repeat split|exact K].
Qed.
Lemma replay_okb kr now b : okb kr b -> okb kr (br_replay W B now b).
Proof. intros K. unfold br_replay. destruct (br_stream b); [now apply in_okb|exact K]. Qed.
Lemma command_okb kr now outs b : okb kr b -> okb kr (br_command C W B rnd now outs b).
Proof.
  intros K. unfold br_command. destruct outs as [|o [|]]; try exact K; destruct o; try exact K; try (now apply fr_okb).
  all: destruct (br_stream b); [|exact K]; apply out_okb; apply (okb_same kr b); [repeat split|exact K].
Qed.
Lemma events_okb kr n : forall now b e, okb kr b -> okb kr (fst (fst (br_events C W B rnd n now b e))).
Proof.
  induction n as [|n IH]; intros now b e K; [exact K|]. cbn [br_events]. destruct (br_stream b) as [s|] eqn:S; [|exact K]. destruct (s_ep s) as [|ev r]; [exact K|].
  destruct (ep_step C e (EStreamEv ev now)) as [e' outs]. specialize (IH now (br_command C W B rnd now outs (br_set_stream (Some (s_set_ep r s)) b)) e').
  destruct (br_events _ _ _ _ n now _ e') as [[b2 e2] l]. apply IH, command_okb, (okb_same kr b); [repeat split|exact K].
Qed.
Lemma drain_reap_okb kr now b e : okb kr b -> okb kr (fst (fst (br_drain_reap C W B rnd now b e))).
Proof.
  intros K. unfold br_drain_reap. destruct (br_stream b); [|exact K]. pose proof (events_okb kr (br_waiting b) now b e K) as E. destruct (br_events _ _ _ _ _ _ _ _) as [[b2 e2] l]. exact E.
Qed.
Lemma drain_payload_okb kr now b e : okb kr b -> okb kr (fst (fst (br_drain_payload C W B rnd now b e))).
Proof. intros K. unfold br_drain_payload. destruct (br_phase b) as [|[]]; try exact K. now apply events_okb. Qed.
Lemma new_okb kr r d o max : rok kr r -> okb kr (br_new r d o kr max).
Proof. intros R. constructor; cbn; auto. discriminate. Qed.
Lemma dialer_rok kr : rok kr (rl_dialer (qc_label Q) (qc_skip Q)).
Proof. unfold rl_dialer. apply flush_ok. destruct (queue_ok kr (mkGate (effective_label (qc_label Q)) (qc_skip Q) Dialer [] false [] false) eq_refl (clean_nil _)). constructor; cbn; auto using clean_nil. Qed.
Lemma acceptor_rok kr : rok kr (rl_acceptor (qc_label Q) (qc_skip Q)).
Proof. constructor; cbn; auto using clean_nil. Qed.

(** The coordinator *)
Record tidy (kr : option keyring) (q : coord) : Prop := {
  ty_kr : q_kr q = kr;
  ty_conns : Forall (fun p => okb kr (snd p)) (q_conns q);
  ty_out : Forall (fun t => clean kr (snd t)) (q_out q) }.
Definition same_q (q q' : coord) : Prop := q_kr q' = q_kr q /\ q_conns q' = q_conns q /\ q_out q' = q_out q.
Lemma tidy_same kr q q' : same_q q q' -> tidy kr q -> tidy kr q'.
Proof. intros (E1 & E2 & E3) [K N O]. constructor; [congruence|now rewrite E2|now rewrite E3]. Qed.
Ltac still := match goal with |- tidy ?k _ => match goal with H : tidy k ?q |- _ => apply (tidy_same k q); [repeat split; try reflexivity|exact H] end end.
Lemma call_same x o q : same_q q (fst (call C x o q)).
Proof. rewrite call_eq. repeat split. Qed.
Lemma tidy_call kr x o q : tidy kr q -> tidy kr (fst (call C x o q)).
Proof. apply tidy_same, call_same. Qed.
Lemma tidy_call_ kr x o q : tidy kr q -> tidy kr (call_ C x o q).
Proof. apply tidy_call. Qed.
Lemma Forall_filter {A} (P : A -> Prop) f l : Forall P l -> Forall P (filter f l).
Proof. rewrite !Forall_forall. intros H a J. apply filter_In in J as (J & _). auto. Qed.
Lemma Forall_adel {A} (P : N * A -> Prop) k (m : amap A) : Forall P m -> Forall P (adel k m).
Proof. induction m as [|[k' a] m IH]; intros H; [constructor|]. inversion H; subst. cbn. destruct (_ =? _); [auto|constructor; auto]. Qed.
Lemma tidy_conns kr l q : Forall (fun p => okb kr (snd p)) l -> tidy kr q -> tidy kr (q_set_conns l q).
Proof. intros L [K N O]. now constructor. Qed.
Lemma tidy_del kr x q : tidy kr q -> tidy kr (q_set_conns (adel x (q_conns q)) q).
Proof. intros T. apply tidy_conns; [|exact T]. apply Forall_adel, T. Qed.
Lemma tidy_put kr x b q : okb kr b -> tidy kr q -> tidy kr (q_set_conns (aset x b (q_conns q)) q).
Proof. intros K T. apply tidy_conns; [|exact T]. constructor; [exact K|]. apply Forall_adel, T. Qed.
Lemma tidy_get kr x b q : tidy kr q -> aget x (q_conns q) = Some b -> okb kr b.
Proof. intros [_ N _] G. rewrite Forall_forall in N. apply aget_in in G. exact (N _ G). Qed.
Lemma tidy_purge kr x q : tidy kr q -> tidy kr (purge x q).
Proof. intros [K N O]. constructor; [exact K|exact N|]. now apply Forall_filter. Qed.
Lemma tidy_collect kr x b q : okb kr b -> tidy kr q -> okb kr (fst (collect x b q)) /\ tidy kr (snd (collect x b q)).
Proof.
  intros K T. unfold collect. destruct (aget x (q_ex q)) as [m|]; [|auto]. cbn [rl_transmit fst snd]. split.
  - destruct K as [KK [L P O] F]. constructor; cbn; auto; [constructor; cbn; auto using clean_nil|]. unfold br_failed in *. cbn. intros FF. split; [reflexivity|now apply F].
  - destruct (r_out (br_rec b)) as [|c bs] eqn:E; [exact T|]. destruct T as [TK TN TO]. constructor; [exact TK|exact TN|]. cbn. apply Forall_app. split; [exact TO|]. constructor; [|constructor]. cbn. rewrite <- E. apply K.
Qed.
Lemma tidy_reap kr x b q : okb kr b -> tidy kr q -> tidy kr (reap C x b q).
Proof.
  intros K T. unfold reap. set (q1 := if br_failed b then purge x q else snd (collect x b q)). assert (T1 : tidy kr q1) by (unfold q1; destruct (br_failed b); [now apply tidy_purge|now apply tidy_collect]). clearbody q1.
  cbv zeta. set (q2 := q_set_ex _ q1). assert (T2 : tidy kr q2) by still. clearbody q2.
  set (q3 := match aget x (q_ex q1) with Some m => match x_kind m with Some k => call_ C _ _ q2 | None => q2 end | None => q2 end).
  assert (T3 : tidy kr q3) by (unfold q3; destruct (aget x (q_ex q1)) as [m|]; [destruct (x_kind m); [now apply tidy_call_|]|]; exact T2). clearbody q3.
  set (q4 := match aget x (q_ex q1) with Some m => match x_mint m with Some (MOut sid) => call_ C _ _ q3 | _ => q3 end | None => q3 end).
  assert (T4 : tidy kr q4) by (unfold q4; destruct (aget x (q_ex q1)) as [m|]; [destruct (x_mint m) as [[]|]; [now apply tidy_call_| |]|]; exact T3). clearbody q4.
  still.
Qed.
Lemma tidy_drained kr x r q : okb kr (fst (fst r)) -> tidy kr q -> okb kr (fst (drained x r q)) /\ tidy kr (snd (drained x r q)).
Proof. intros K T. destruct r as [[b e] l]. split; [exact K|]. cbn. still. Qed.
Lemma tidy_pump_one kr now q x : tidy kr q -> tidy kr (pump_one C W B rnd now q x).
Proof.
  intros T. unfold pump_one. destruct (aget x (q_conns q)) as [b|] eqn:G; [|exact T]. pose proof (tidy_get _ _ _ _ T G) as K.
  pose proof (tidy_del kr x q T) as T1. set (q1 := q_set_conns _ q) in *. clearbody q1. apply (replay_okb kr now), (out_okb kr now) in K. set (b1 := br_pump_out _ _ _ _) in *. clearbody b1. cbv zeta.
  assert (RP : forall b q, okb kr b -> tidy kr q -> tidy kr (let '(b, q) := drained x (br_drain_reap C W B rnd now b (q_ep q)) q in reap C x b q)).
  { clear. intros b q K T. destruct (tidy_drained kr x (br_drain_reap C W B rnd now b (q_ep q)) q (drain_reap_okb _ _ _ _ K) T) as (K' & T'). destruct (drained _ _ _) as [b' q']. now apply tidy_reap. }
  destruct (br_terminal b1); [now apply RP|].
  destruct (tidy_drained kr x (br_drain_payload C W B rnd now b1 (q_ep q1)) q1 (drain_payload_okb _ _ _ _ K) T1) as (K2 & T2). destruct (drained _ _ _) as [b2 q2]. cbn [fst snd] in *.
  destruct (br_terminal b2); [now apply RP|]. assert (T3 : tidy kr (maybe_shutdown x b2 q2)).
  { unfold maybe_shutdown. destruct (negb _); [exact T2|]. destruct (aget x (q_ex q2)) as [m|]; [|exact T2]. destruct (x_fin m); [exact T2|still]. }
  pose proof (tidy_put kr x b2 _ K2 T3) as T4. still.
Qed.
Lemma tidy_fold {A} kr (f : coord -> A -> coord) : (forall q a, tidy kr q -> tidy kr (f q a)) -> forall l q, tidy kr q -> tidy kr (fold_left f l q).
Proof. intros H l. induction l as [|a l IH]; intros q T; [exact T|]. cbn. auto. Qed.
Lemma tidy_pump_all kr now q : tidy kr q -> tidy kr (pump_all C W B rnd now q).
Proof. intros T. unfold pump_all. apply tidy_fold; [intros; now apply tidy_pump_one|still]. Qed.
Lemma tidy_cancel kr x q : tidy kr q -> tidy kr (cancel x q).
Proof.
  intros T. unfold cancel. cbv zeta. pose proof (tidy_del kr x q T) as T1. set (q1 := q_set_ex _ _). assert (T2 : tidy kr q1) by (unfold q1; still). clearbody q1. apply (tidy_purge kr x) in T2. still.
Qed.
Lemma tidy_retire kr x q : tidy kr q -> tidy kr (retire_dial C x q).
Proof.
  intros T. unfold retire_dial. apply (tidy_purge kr x) in T. set (q1 := purge_connect x (purge x q)). assert (T1 : tidy kr q1) by (unfold q1; still). clearbody q1. cbv zeta.
  pose proof (tidy_del kr x q1 T1) as T2. set (q2 := q_set_conns _ q1) in *. clearbody q2. set (q3 := q_set_ex _ q2). assert (T3 : tidy kr q3) by (unfold q3; still). clearbody q3.
  set (q4 := match aget x (q_ex q2) with Some m => match x_kind m with Some k => call_ C _ _ q3 | None => q3 end | None => q3 end).
  assert (T4 : tidy kr q4) by (unfold q4; destruct (aget x (q_ex q2)) as [m|]; [destruct (x_kind m); [now apply tidy_call_|]|]; exact T3). clearbody q4. still.
Qed.
Lemma tidy_promote kr x s q : tidy kr q -> tidy kr (promote_in x s q).
Proof.
  intros T. unfold promote_in. destruct (aget x (q_conns q)) as [b|] eqn:G; [|exact T]. apply tidy_put; [|exact T]. unfold br_promote. apply okb_live; [discriminate|]. apply (okb_same kr b); [repeat split|]. exact (tidy_get _ _ _ _ T G).
Qed.
Lemma tidy_mint_one kr now q x : tidy kr q -> tidy kr (mint_one C W now q x).
Proof.
  intros T. unfold mint_one. destruct (aget x (q_conns q)) as [b|]; [|exact T]. destruct (br_terminal b); [exact T|]. destruct (br_handshaking b); [still|]. destruct (aget x (q_ex q)) as [m|]; [|still].
  destruct (x_mint m) as [[sid|from]|]; [| |still]; cbv zeta; set (q1 := mark_dirty _ _); assert (T1 : tidy kr q1) by (unfold q1; still); clearbody q1.
  - pose proof (tidy_call kr (Some x) (EDialOk sid now) q1 T1) as T2. destruct (call C (Some x) (EDialOk sid now) q1) as [q2 outs]. cbn [fst] in T2.
    destruct outs as [|[] [|]]; try (now apply tidy_retire). all: destruct req as [[k msg]|]; (now apply tidy_promote) || (now apply tidy_retire).
  - pose proof (tidy_call kr (Some x) (EAccept from now) q1 T1) as T2. destruct (call C (Some x) (EAccept from now) q1) as [q2 outs]. cbn [fst] in T2.
    destruct outs as [|[] [|]]; try (now apply tidy_cancel). all: destruct req as [[k msg]|]; (now apply tidy_promote) || (now apply tidy_cancel).
Qed.
Lemma tidy_mint_all kr now q : tidy kr q -> tidy kr (mint_all C W now q).
Proof. intros T. unfold mint_all. apply tidy_fold; [intros; now apply tidy_mint_one|still]. Qed.
Lemma tidy_collect_all kr q : tidy kr q -> tidy kr (collect_all q).
Proof.
  intros T. unfold collect_all. apply tidy_fold; [|still]. clear. intros q x T. unfold collect_one. destruct (aget x (q_conns q)) as [b|] eqn:G; [|exact T].
  destruct (tidy_collect kr x b _ (tidy_get _ _ _ _ T G) (tidy_del kr x q T)) as (K & T'). destruct (collect _ _ _) as [b' q']. now apply tidy_put.
Qed.
Lemma tidy_sieve kr q : tidy kr q -> tidy kr (sieve C q).
Proof.
  intros T. unfold sieve. cbv zeta. apply tidy_fold; [intros; now apply tidy_call_|]. set (q1 := fold_left _ _ q). assert (T1 : tidy kr q1) by (apply tidy_fold; [intros; now apply tidy_call_|exact T]). clearbody q1. still.
Qed.
Lemma tidy_dial_one kr now q t : tidy kr q -> tidy kr (dial_one C Q now q t).
Proof.
  intros T. destruct t as [[id peer] d]. unfold dial_one. cbv zeta. set (q1 := q_set_kinds _ q). assert (T1 : tidy kr q1) by (unfold q1; still). clearbody q1. destruct (d <=? now); [now apply tidy_call_|].
  set (q2 := q_set_next _ q1). assert (T2 : tidy kr q2) by (unfold q2; still). assert (EN : q_kr q2 = kr) by apply T2. generalize (q_next q1) as x. clearbody q2. intros x. rewrite EN.
  pose proof (tidy_put kr x _ q2 (new_okb kr _ d (qc_comp Q) (c_frame_max C) (dialer_rok kr)) T2) as T3. still.
Qed.
Lemma tidy_dial_all kr now q : tidy kr q -> tidy kr (dial_all C Q now q).
Proof.
  intros T. unfold dial_all. destruct (negb _); [exact T|]. apply (tidy_sieve kr) in T. apply tidy_fold; [intros; now apply tidy_dial_one|still].
Qed.
Lemma tidy_tick kr now q : tidy kr q -> tidy kr (tick C Q W B rnd now q).
Proof.
  intros T. unfold tick. cbv zeta. pose proof (tidy_collect_all kr _ (tidy_pump_all kr now _ (tidy_mint_all kr now _ (tidy_dial_all kr now _ (tidy_mint_all kr now _ (tidy_call_ kr None (ETimeout now) _ (tidy_pump_all kr now _ T))))))) as T1. still.
Qed.
Lemma tidy_flush kr now q : tidy kr q -> tidy kr (flush C W B rnd now q).
Proof. intros T. unfold flush. now apply tidy_collect_all, tidy_pump_all, tidy_mint_all, tidy_pump_all. Qed.
Lemma tidy_start kr o k now q : tidy kr q -> tidy kr (fst (CoordModel.start C Q W B rnd o k now q)).
Proof.
  intros T. unfold CoordModel.start. assert (T1 : tidy kr (q_set_last (Some now) q)) by still. pose proof (tidy_call kr None o _ T1) as T2. destruct (call C None o _) as [q2 outs]. cbn [fst] in T2.
  destruct outs as [|[] [|]]; try exact T2. cbn [fst]. apply tidy_flush, tidy_dial_all. still.
Qed.
Lemma tidy_bridge kr f x q : (forall b, okb kr b -> okb kr (f b)) -> tidy kr q -> tidy kr (on_bridge f x q).
Proof. intros H T. unfold on_bridge. destruct (aget x (q_conns q)) as [b|] eqn:G; [|exact T]. apply tidy_put; [apply H; exact (tidy_get _ _ _ _ T G)|exact T]. Qed.
Lemma tidy_event kr n : forall q, tidy kr q -> tidy kr (fst (poll_event_loop C n q)).
Proof.
  induction n as [|n IH]; intros q T; [exact T|]. cbn [poll_event_loop]. pose proof (tidy_call kr None EPollEvent q T) as T1. destruct (call C None EPollEvent q) as [q1 outs]. cbn [fst] in T1.
  destruct outs as [|[] [|]]; try exact T1. all: match goal with v : event |- _ => destruct v; try exact T1 end. apply IH. still.
Qed.
(** the options after a call *)
Definition keys_after (kr : option keyring) (o : qop) : option keyring := match o with QEncrypt k => k | _ => kr end.
Lemma tidy_encrypt kr kr' q : tidy kr q -> tidy kr' (set_encryption kr' q).
Proof.
  intros T. unfold set_encryption. destruct (kr_eqb (q_kr q) kr') eqn:E.
  - apply kr_eqb_eq in E. destruct T as [TK TN TO]. rewrite TK in E. subst kr'. constructor; auto.
  - clear E. cbv zeta. set (hit := map fst _). set (l := map _ (q_conns q)). assert (L : Forall (fun p => okb kr' (snd p)) l).
    { unfold l. apply Forall_forall. intros p J. apply in_map_iff in J as (p0 & <- & J). destruct T as [_ TN _]. rewrite Forall_forall in TN. apply TN in J. cbn [snd]. clear - J. destruct (snd p0) as [st r se fi eo ph dl co pr k ac mx]. destruct J as [K [RL RP RO] F]. cbn in *.
      unfold br_set_encryption, br_fail, br_set_kr. unfold br_failed in *. cbn in *. destruct ph as [|[]]; cbn; try (destruct st; cbn); (constructor; cbn; [reflexivity| |unfold br_failed; cbn; auto]); constructor; cbn; auto using clean_nil.
      all: destruct (F eq_refl) as (-> & ->) || idtac; auto using clean_nil.
      all: destruct (F eq_refl) as (E1 & E2); rewrite ?E1, ?E2; apply clean_nil. }
    clearbody l. set (q1 := q_set_conns l q). assert (EC : q_conns q1 = l) by reflexivity. clearbody q1. revert q1 EC. induction hit as [|x hit IH]; intros q1 EC.
    + constructor; cbn; auto. destruct (filter _ (q_conns q)); cbn; now rewrite EC.
    + cbn [fold_left]. apply IH. exact EC.
Qed.
Lemma tidy_step kr q o : tidy kr q -> tidy (keys_after kr o) (fst (q_step C Q W B rnd q o)).
Proof.
  intros T. destruct o; cbn [q_step keys_after]; try (cbn [fst]; exact T).
  - cbn [fst]. unfold on_data. apply tidy_tick. cbv zeta. set (q1 := on_bridge _ _ _). assert (T1 : tidy kr q1).
    { unfold q1. apply tidy_bridge; [|still]. intros b K. destruct data; destruct eof; try exact K; repeat apply data_okb; exact K. }
    clearbody q1. still.
  - cbn [fst]. unfold on_failure. apply tidy_tick. set (q1 := on_bridge _ _ _). assert (T1 : tidy kr q1) by (unfold q1; apply tidy_bridge; [intros; now apply fail_okb|still]). clearbody q1. still.
  - cbn [fst]. unfold on_failure. apply tidy_tick. set (q1 := on_bridge _ _ _). assert (T1 : tidy kr q1) by (unfold q1; apply tidy_bridge; [intros; now apply fail_okb|still]). clearbody q1. still.
  - assert (T1 : tidy kr (fst (accept C Q from now q))).
    { unfold accept. set (q1 := q_set_last _ q). assert (T1 : tidy kr q1) by (unfold q1; still). clearbody q1. destruct (negb _); [exact T1|]. destruct (match qc_max_in Q with Some max => _ | None => _ end); [exact T1|]. cbn [fst].
      set (q2 := q_set_next _ q1). assert (T2 : tidy kr q2) by (unfold q2; still). assert (EN : q_kr q2 = kr) by apply T2. generalize (q_next q1) as x. clearbody q2. intros x. rewrite EN.
      pose proof (tidy_put kr x _ q2 (new_okb kr _ (tadd now (qc_accept Q)) (qc_comp Q) (c_frame_max C) (acceptor_rok kr)) T2) as T3. still. }
    destruct (accept C Q from now q); exact T1.
  - pose proof (tidy_start kr (EPushPull peer join now) XPushPull now q T) as T1. destruct (CoordModel.start _ _ _ _ _ _ _ _ _); exact T1.
  - pose proof (tidy_start kr (EReliable id addr seq deadline) XReliablePing now q T) as T1. destruct (CoordModel.start _ _ _ _ _ _ _ _ _); exact T1.
  - pose proof (tidy_start kr (EUserMsg peer data now) XUserMessage now q T) as T1. destruct (CoordModel.start _ _ _ _ _ _ _ _ _); exact T1.
  - cbn [fst]. unfold on_timeout. apply tidy_tick. apply tidy_fold; [intros; still|still].
  - cbn [fst]. unfold q_leave. cbv zeta. apply tidy_call_. apply tidy_fold; [intros q1 x T1; destruct (has_bytes x q1); [now apply tidy_cancel|exact T1]|]. still.
  - cbn [fst]. now apply (tidy_encrypt kr).
  - cbn [fst]. unfold on_gossip. cbv zeta. destruct (negb _); [still|]. destruct (_ <=? _); still.
  - unfold poll_bytes. destruct (q_out q) as [|t r] eqn:E; cbn [fst]; [exact T|]. destruct T as [TK TN TO]. constructor; auto. cbn. rewrite E in TO. now inversion TO.
  - unfold poll_action. destruct (q_con q) as [|[[x p] s] r]; [destruct (take_first _ _) as [[t r]|]|]; cbn [fst]; try exact T; still.
  - pose proof (tidy_event kr (S (length (k_ev (e_core (q_ep q))))) q T) as T1. unfold poll_event. destruct (poll_event_loop C _ q); exact T1.
  - unfold poll_ingress. destruct (q_ing q); cbn [fst]; [exact T|still].
  - cbn [fst]. unfold requeue. cbv zeta. destruct ev; try (apply tidy_call_; still). destruct (negb _); still.
  - destruct (plain o); [|exact T]. set (q1 := match last with Some n => _ | None => q end). assert (T1 : tidy kr q1) by (unfold q1; destruct last; [still|exact T]). clearbody q1.
    pose proof (tidy_call kr None o q1 T1) as T2. destruct (call C None o q1); exact T2.
  - cbn [fst]. destruct T as [TK TN TO]. constructor; auto. cbn. rewrite Forall_forall in *. intros p J. apply TN. eapply Permutation_in; [|exact J]. apply Permutation_sym, shuffle_perm.
Qed.
Lemma tidy_run os : forall kr q, tidy kr q -> tidy (fold_left keys_after os kr) (fst (q_run C Q W B rnd q os)).
Proof.
  induction os as [|o os IH]; intros kr q T; [exact T|]. cbn [q_run fold_left]. pose proof (tidy_step kr q o T) as T1. destruct (q_step C Q W B rnd q o) as [q1 y1]. cbn [fst] in T1. specialize (IH _ _ T1). destruct (q_run C Q W B rnd q1 os). exact IH.
Qed.
End Seal.
