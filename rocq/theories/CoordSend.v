(** What is asked to be sent over a new connection is sent: the way of one
    exchange through the coordinator (CoordModel.v), from the call to the bytes
    and the end of the sending side. *)
From Coq Require Import Permutation.
From Verif Require Import CodecModel.
From Verif Require Import Base BaseFacts MapFacts LabelSpec LabelFacts StreamModel TransformModel CoreFacts EndpointInv EndpointHist EndpointDials BridgeModel BridgeFacts CoordModel CoordFacts CoordRuns CoordSteps CoordFrame CoordClaims CoordSeal CoordFresh.
Local Open Scope N_scope.

Section Send.
Context (C : cfg) (Q : qcfg) (W : wcodec) (B : backends) (rnd : N -> N -> option bytes).
(** [id]: the stream id; [x]: the exchange; [kr]: the keys *)
Context (id x : N) (kr : option keyring).
Definition others (q : coord) : Prop := forall y m, aget y (q_ex q) = Some m -> y <> x -> x_mint m <> Some (MOut id).
Record base (oi : option intent) (q : coord) : Prop := {
  ba_e : einv C (q_ep q); ba_r : q_runs q = true; ba_k : q_kr q = kr; ba_o : others q; ba_h : held id oi (q_ep q) }.
Definition slot (q : coord) := (aget x (q_conns q), aget x (q_ex q), outs_of x (q_out q), cons_of x (q_con q), tds_of x (q_td q)).
Record keep (q q' : coord) : Prop := {
  ke_s : slot q' = slot q;
  ke_u : In x (q_unminted q) -> In x (q_unminted q');
  ke_d : In x (q_dirty q) -> In x (q_dirty q');
  ke_p : In x (q_pumped q) -> In x (q_pumped q') }.
(** what a step that is not about [x] leaves *)
Definition aside (oi : option intent) (q q' : coord) : Prop := base oi q -> base oi q' /\ keep q q'.
Lemma keep_refl q : keep q q.
Proof. constructor; auto. Qed.
Lemma keep_trans a b c : keep a b -> keep b c -> keep a c.
Proof. intros [A1 A2 A3 A4] [B1 B2 B3 B4]. constructor; auto. congruence. Qed.
Section Frame.
Context (oi : option intent).
Notation base := (base oi).
Notation aside := (aside oi).
Lemma aside_refl q : aside q q.
Proof. intros H. split; [exact H|apply keep_refl]. Qed.
Lemma aside_trans a b c : aside a b -> aside b c -> aside a c.
Proof. intros A1 A2 H. destruct (A1 H) as (H1 & K1). destruct (A2 H1) as (H2 & K2). split; [exact H2|eapply keep_trans; eauto]. Qed.
Lemma aside_fold {A} (f : coord -> A -> coord) l : (forall q a, In a l -> aside q (f q a)) -> forall q, aside q (fold_left f l q).
Proof. induction l as [|a l IH]; intros H q; [apply aside_refl|]. cbn. eapply aside_trans; [apply H; now left|apply IH]. intros; apply H; now right. Qed.
Lemma aside_still q q' : q_ep q' = q_ep q -> q_kr q' = q_kr q -> (others q -> others q') -> slot q' = slot q ->
  (In x (q_unminted q) -> In x (q_unminted q')) -> (In x (q_dirty q) -> In x (q_dirty q')) -> (In x (q_pumped q) -> In x (q_pumped q')) -> aside q q'.
Proof. intros E1 E2 E3 E4 E5 E6 E7 [H1 H2 H3 H4 H5]. split; [|now constructor]. constructor; unfold q_runs in *; rewrite ?E1; auto. congruence. Qed.
Ltac still := apply aside_still; cbn; auto.
Lemma aside_call ox o q : leaves id o -> aside q (call_ C ox o q).
Proof.
  intros L [H1 H2 H3 H4 H5]. unfold call_. rewrite call_eq. cbn [fst]. split; [|constructor; cbn; auto; reflexivity].
  constructor; cbn; auto.
  - now apply einv_op.
  - unfold q_runs in *. cbn. rewrite <- H2. destruct o; cbn [leaves] in L; try contradiction; try (apply runs_keep; [exact H1|exact Logic.I]). apply runs_poll.
  - now apply held_step.
Qed.
Lemma aside_del y q : y <> x -> aside q (q_set_conns (adel y (q_conns q)) q).
Proof. intros N. still. unfold slot. cbn. rewrite aget_adel_ne; auto. Qed.
Lemma aside_put y b q : y <> x -> aside q (q_set_conns (aset y b (q_conns q)) q).
Proof. intros N. still. unfold slot. cbn. rewrite aget_aset_ne; auto. Qed.
Lemma aside_delx y q : y <> x -> aside q (q_set_ex (adel y (q_ex q)) q).
Proof.
  intros N. still; [|unfold slot; cbn; rewrite aget_adel_ne; auto]. intros O z m G NZ. cbn in G. destruct (N.eq_dec z y) as [->|NE]; [rewrite aget_adel_eq in G; discriminate|]. rewrite aget_adel_ne in G by exact NE. eauto.
Qed.
Lemma aside_putx y m q : y <> x -> x_mint m <> Some (MOut id) -> aside q (q_set_ex (aset y m (q_ex q)) q).
Proof.
  intros N M. still; [|unfold slot; cbn; rewrite aget_aset_ne; auto]. intros O z m1 G NZ. cbn in G. destruct (N.eq_dec z y) as [->|NE]; [rewrite aget_aset_eq in G; injection G as <-; exact M|]. rewrite aget_aset_ne in G by exact NE. eauto.
Qed.
Lemma outs_one_ne y p l : y <> x -> outs_of x [(y, p, l)] = [].
Proof. intros N. unfold outs_of. cbn. now rewrite (proj2 (N.eqb_neq y x) N). Qed.
Lemma tds_one_ne t : td_ex t <> x -> tds_of x [t] = [].
Proof. intros N. unfold tds_of. cbn. now rewrite (proj2 (N.eqb_neq _ x) N). Qed.
Lemma aside_td t q : td_ex t <> x -> aside q (push_td t q).
Proof. intros N. still. unfold slot. cbn. rewrite tds_app, tds_one_ne, app_nil_r by exact N. reflexivity. Qed.
Lemma aside_purge y q : y <> x -> aside q (purge y q).
Proof. intros N. still. unfold slot. cbn. rewrite outs_ne by congruence. reflexivity. Qed.
Lemma aside_purgec y q : y <> x -> aside q (purge_connect y q).
Proof. intros N. still. unfold slot. cbn. rewrite cons_ne by congruence. reflexivity. Qed.
Lemma aside_collect y b q : y <> x -> aside q (snd (collect y b q)).
Proof.
  intros N. unfold collect. destruct (aget y (q_ex q)) as [m|]; [|apply aside_refl]. cbn. destruct (r_out (br_rec b)); [apply aside_refl|still]. unfold slot. cbn. rewrite outs_app, outs_one_ne, app_nil_r by exact N. reflexivity.
Qed.
Lemma aside_reap y b q : y <> x -> aside q (reap C y b q).
Proof.
  intros N. unfold reap. set (q1 := if br_failed b then purge y q else snd (collect y b q)). assert (T1 : aside q q1) by (unfold q1; destruct (br_failed b); [now apply aside_purge|now apply aside_collect]). clearbody q1.
  eapply aside_trans; [exact T1|]. intros B1. assert (OM : forall m sid, aget y (q_ex q1) = Some m -> x_mint m = Some (MOut sid) -> sid <> id) by (intros m sid G M ->; exact (ba_o _ _ B1 y m G N M)). revert B1.
  cbv zeta. set (q2 := q_set_ex _ q1). assert (T2 : aside q1 q2) by now apply aside_delx. clearbody q2.
  set (q3 := match aget y (q_ex q1) with Some m => match x_kind m with Some k => call_ C _ _ q2 | None => q2 end | None => q2 end).
  assert (T3 : aside q1 q3) by (unfold q3; destruct (aget y (q_ex q1)) as [m|]; [destruct (x_kind m); [eapply aside_trans; [exact T2|apply aside_call; exact Logic.I]|]|]; exact T2). clearbody q3.
  set (q4 := match aget y (q_ex q1) with Some m => match x_mint m with Some (MOut sid) => call_ C _ _ q3 | _ => q3 end | None => q3 end).
  assert (T4 : aside q1 q4) by (unfold q4; destruct (aget y (q_ex q1)) as [m|] eqn:G; [destruct (x_mint m) as [[sid|]|] eqn:M; [eapply aside_trans; [exact T3|apply aside_call; exact (OM m sid eq_refl M)]| |]|]; exact T3). clearbody q4.
  change (aside q1 (push_td (if br_failed b then TAbort y else TClose y) q4)). eapply aside_trans; [exact T4|apply aside_td]. destruct (br_failed b); exact N.
Qed.
Lemma aside_drained y r q : snd (fst r) = fst (ep_run C (q_ep q) (snd r)) -> Forall (fun o => exists ev now, o = EStreamEv ev now) (snd r) -> aside q (snd (drained y r q)).
Proof.
  destruct r as [[b e] l]. cbn [fst snd]. intros -> F. cbn. intros [H1 H2 H3 H4 H5]. split; [|constructor; cbn; auto; reflexivity].
  assert (G : einv C (fst (ep_run C (q_ep q) l)) /\ runs (fst (ep_run C (q_ep q) l)) = true /\ held id oi (fst (ep_run C (q_ep q) l))).
  { unfold q_runs in H2. rewrite ep_run_fst. revert H1 H2 H5. generalize (q_ep q) as e. induction F as [|o l (v & n & ->) F IH]; intros e I R H; [auto|]. cbn [fold_left]. apply IH; [now apply einv_op| |now apply held_step]. rewrite <- R. now apply runs_keep. }
  destruct G as (G1 & G2 & G3). constructor; auto.
Qed.
Lemma aside_shut y b q : y <> x -> aside q (maybe_shutdown y b q).
Proof.
  intros N. unfold maybe_shutdown. destruct (negb _); [apply aside_refl|]. destruct (aget y (q_ex q)) as [m|] eqn:G; [|apply aside_refl]. destruct (x_fin m); [apply aside_refl|].
  intros B1. assert (M : x_mint (x_set_fin true m) <> Some (MOut id)) by exact (ba_o _ _ B1 y m G N). revert B1.
  change (aside q (push_td (TShutdown y) (q_set_ex (aset y (x_set_fin true m) (q_ex q)) q))). eapply aside_trans; [apply (aside_putx y (x_set_fin true m) q N M)|now apply aside_td].
Qed.
Lemma aside_pumped y q : aside q (q_set_pumped (oset y (q_pumped q)) q).
Proof. still. intros J. apply (in_oset rnd). auto. Qed.
Lemma aside_pump_one now q y : y <> x -> aside q (pump_one C W B rnd now q y).
Proof.
  intros N. unfold pump_one. destruct (aget y (q_conns q)) as [b|] eqn:G; [|apply aside_refl].
  pose proof (aside_del y q N) as T1. set (q1 := q_set_conns _ q) in *. clearbody q1. set (b1 := br_pump_out _ _ _ _) in *. clearbody b1. cbv zeta.
  assert (RP : forall b q0, aside q q0 -> aside q (let '(b, q) := drained y (br_drain_reap C W B rnd now b (q_ep q0)) q0 in reap C y b q)).
  { intros b0 q0 A. pose proof (reap_calls C W B rnd now b0 (q_ep q0)) as RC. destruct (br_drain_reap C W B rnd now b0 (q_ep q0)) as [[b2 e2] l]. destruct RC as (E & F). pose proof (aside_drained y (b2, e2, l) q0 E F) as A2. destruct (drained _ _ _) as [b' q'].
    eapply aside_trans; [exact A|]. eapply aside_trans; [exact A2|now apply aside_reap]. }
  destruct (br_terminal b1); [now apply RP|].
  pose proof (payload_calls C W B rnd now b1 (q_ep q1)) as RC. destruct (br_drain_payload C W B rnd now b1 (q_ep q1)) as [[b2 e2] l]. destruct RC as (E & F). pose proof (aside_drained y (b2, e2, l) q1 E F) as A2. destruct (drained _ _ _) as [b3 q3].
  cbn [snd] in A2. pose proof (aside_trans _ _ _ T1 A2) as A3.
  destruct (br_terminal b3); [now apply RP|]. eapply aside_trans; [exact A3|]. eapply aside_trans; [apply (aside_shut y b3 q3 N)|]. eapply aside_trans; [apply (aside_put y b3 _ N)|exact (aside_pumped y (q_set_conns (aset y b3 (q_conns (maybe_shutdown y b3 q3))) (maybe_shutdown y b3 q3)))].
Qed.
Lemma aside_cancel y q : y <> x -> aside q (cancel y q).
Proof.
  intros N. unfold cancel. cbv zeta. eapply aside_trans; [apply (aside_del y q N)|]. eapply aside_trans; [apply (aside_delx y _ N)|]. eapply aside_trans; [apply (aside_purge y _ N)|].
  eapply aside_trans; [|apply aside_td; exact N]. still. unfold slot. cbn. rewrite tds_ne by congruence. reflexivity.
Qed.
Lemma aside_retire y q : y <> x -> aside q (retire_dial C y q).
Proof.
  intros N. unfold retire_dial. set (q1 := purge_connect y (purge y q)). assert (T1 : aside q q1) by (unfold q1; eapply aside_trans; [exact (aside_purge y q N)|exact (aside_purgec y _ N)]). clearbody q1. cbv zeta.
  pose proof (aside_trans _ _ _ T1 (aside_del y q1 N)) as T2. set (q2 := q_set_conns _ q1) in *. clearbody q2. pose proof (aside_trans _ _ _ T2 (aside_delx y q2 N)) as T3. set (q3 := q_set_ex _ q2) in *. clearbody q3.
  set (q4 := match aget y (q_ex q2) with Some m => match x_kind m with Some k => call_ C _ _ q3 | None => q3 end | None => q3 end).
  assert (T4 : aside q q4) by (unfold q4; destruct (aget y (q_ex q2)) as [m|]; [destruct (x_kind m); [eapply aside_trans; [exact T3|apply aside_call; exact Logic.I]|]|]; exact T3). clearbody q4. eapply aside_trans; [exact T4|now apply aside_td].
Qed.
Lemma aside_promote y s q : y <> x -> aside q (promote_in y s q).
Proof. intros N. unfold promote_in. destruct (aget y (q_conns q)) as [b|] eqn:G; [now apply aside_put|apply aside_refl]. Qed.
Lemma aside_dirty y q : aside q (mark_dirty y q).
Proof. still. intros J. apply (in_oset rnd). auto. Qed.
Lemma aside_mint_one now q y : y <> x -> aside q (mint_one C W now q y).
Proof.
  intros N. unfold mint_one. destruct (aget y (q_conns q)) as [b|]; [|apply aside_refl]. destruct (br_terminal b); [apply aside_refl|]. destruct (br_handshaking b); [still; intros J; apply (in_oset rnd); auto|]. destruct (aget y (q_ex q)) as [m|] eqn:G; [|still].
  assert (T1 : aside q (mark_dirty y (q_set_ex (aset y (x_set_mint None m) (q_ex q)) q))) by (eapply aside_trans; [apply (aside_putx y (x_set_mint None m) q N); discriminate|apply aside_dirty]).
  destruct (x_mint m) as [[sid|fr]|] eqn:M; [| |still]; cbv zeta; set (q1 := mark_dirty _ _) in *; clearbody q1.
  - intros B0. assert (NS : sid <> id) by (intros ->; exact (ba_o _ _ B0 y m G N M)). revert B0. match goal with |- _ -> _ /\ keep _ ?q2 => change (aside q q2) end. eapply aside_trans; [exact T1|].
    pose proof (aside_call (Some y) (EDialOk sid now) q1 NS) as T2. unfold call_ in T2. destruct (call C (Some y) (EDialOk sid now) q1) as [q2 outs]. cbn [fst] in T2. eapply aside_trans; [exact T2|].
    destruct outs as [|[] [|]]; try (now apply aside_retire). all: destruct req as [[k msg]|]; (now apply aside_promote) || (now apply aside_retire).
  - eapply aside_trans; [exact T1|]. pose proof (aside_call (Some y) (EAccept fr now) q1 Logic.I) as T2. unfold call_ in T2. destruct (call C (Some y) (EAccept fr now) q1) as [q2 outs]. cbn [fst] in T2. eapply aside_trans; [exact T2|].
    destruct outs as [|[] [|]]; try (now apply aside_cancel). all: destruct req as [[k msg]|]; (now apply aside_promote) || (now apply aside_cancel).
Qed.
Lemma aside_collect_one q y : y <> x -> aside q (collect_one q y).
Proof.
  intros N. unfold collect_one. destruct (aget y (q_conns q)) as [b|] eqn:G; [|apply aside_refl].
  pose proof (aside_trans _ _ _ (aside_del y q N) (aside_collect y b _ N)) as A. destruct (collect _ _ _) as [b' q']. eapply aside_trans; [exact A|now apply aside_put].
Qed.
Lemma aside_sieve q : aside q (sieve C q).
Proof.
  unfold sieve. cbv zeta. eapply aside_trans; [apply (aside_fold (fun q (_ : event) => call_ C None EPollEvent q) (k_ev (e_core (q_ep q)))); intros; apply aside_call; exact Logic.I|].
  set (q1 := fold_left _ (k_ev (e_core (q_ep q))) q). clearbody q1. eapply aside_trans; [|apply aside_fold; intros; apply aside_call; exact Logic.I]. still.
Qed.
Lemma aside_dial_one now q t : q_next (dial_one C Q now q t) <= x -> fst (fst t) <> id -> aside q (dial_one C Q now q t).
Proof.
  destruct t as [[s peer] d]. cbn [fst]. unfold dial_one. cbv zeta. set (q1 := q_set_kinds _ q). assert (T1 : aside q q1) by (unfold q1; still). clearbody q1. generalize (aget s (q_kinds q)) as kd. intros kd LT NS. eapply aside_trans; [exact T1|].
  destruct (d <=? now); [now apply aside_call|]. cbn in LT. assert (NX : q_next q1 <> x) by lia. set (y := q_next q1) in *. set (b := br_new _ _ _ _ _).
  eapply aside_trans; [apply (aside_put y b q1 NX)|]. eapply aside_trans; [apply (aside_putx y (mkX peer (Some (MOut s)) false kd true) _ NX); cbn; congruence|].
  still; try (intros J; apply (in_oset rnd); auto). unfold slot. cbn. rewrite cons_app. unfold cons_of at 2. cbn. rewrite (proj2 (N.eqb_neq y x) NX), app_nil_r. reflexivity.
Qed.
End Frame.

(** one pass over a list that has [x] in it *)
Lemma through (f : coord -> N -> coord) (oi1 oi2 : option intent) (P1 P2 : coord -> Prop) :
  (forall oi q y, y <> x -> aside oi q (f q y)) -> (forall q q', keep q q' -> P1 q -> P1 q') -> (forall q q', keep q q' -> P2 q -> P2 q') ->
  (forall q, base oi1 q -> P1 q -> base oi2 (f q x) /\ P2 (f q x)) -> (forall q, base oi2 q -> P2 q -> base oi2 (f q x) /\ P2 (f q x)) ->
  forall l q, In x l -> base oi1 q -> P1 q -> base oi2 (fold_left f l q) /\ P2 (fold_left f l q).
Proof.
  intros A K1 K2 S1 S2.
  assert (H : forall l q, base oi2 q -> P2 q -> base oi2 (fold_left f l q) /\ P2 (fold_left f l q)).
  { induction l as [|y l IH]; intros q B2 H2; [auto|]. cbn [fold_left]. destruct (N.eq_dec y x) as [->|NE].
    - destruct (S2 q B2 H2). now apply IH.
    - destruct (A oi2 q y NE B2) as (B3 & K). apply IH; [exact B3|]. eapply K2; eauto. }
  induction l as [|y l IH]; intros q J B1 H1; [destruct J|]. cbn [fold_left]. destruct (N.eq_dec y x) as [->|NE].
  - destruct (S1 q B1 H1). now apply H.
  - destruct (A oi1 q y NE B1) as (B3 & K). destruct J as [J|J]; [congruence|]. apply IH; [exact J|exact B3|]. eapply K1; eauto.
Qed.

(** ** The way of the exchange [x] *)
Section Stages.
Context (peer d now : N) (k : outkind) (msg : msg) (kd : option xkind) (frame u : bytes).
Hypothesis HL : forall l, effective_label (qc_label Q) = Some l -> valid_label l.
Hypothesis HD : now < d.
Hypothesis HF : wire_enc W msg = frame.
Hypothesis HN : frame <> [].
Hypothesis HU : encode_reliable_unit B (qc_comp Q) kr (rnd id now) frame = Ok u.
Definition i0 : intent := mkIntent peer k d msg.
Definition r0 : rlayer := rl_dialer (qc_label Q) (qc_skip Q).
Definition b0 : bridge := br_new r0 d (qc_comp Q) kr (c_frame_max C).
Definition m0 : xmeta := mkX peer (Some (MOut id)) false kd true.
Definition s1 : stream := stream_outbound id peer (c_id C) (c_frame_max C) k frame d.
Definition b1 : bridge := br_promote s1 b0.
Definition m1 : xmeta := x_set_mint None m0.
Definition s2 : stream := fst (s_transmit now s1).
Definition b2 : bridge := mkBr (Some s2) (rl_write r0 u) true true false (BEst LSendClosed) d (qc_comp Q) false kr [] (c_frame_max C).
Definition m2 : xmeta := x_set_fin true m1.
Definition b3 : bridge := br_set_rec (fst (rl_transmit (rl_write r0 u))) b2.
Definition cons0 : list (N * N * N) := [(x, peer, id)].
Definition sent0 : bytes := match effective_label (qc_label Q) with Some l => header l | None => [] end ++ u.

Lemma r0_shape : exists g em, r0 = mkR g [] (match effective_label (qc_label Q) with Some l => header l | None => [] end) em [] /\ is_validating g = false /\ g_validated g = false.
Proof.
  unfold r0, rl_dialer, gate_dialer, queue_outbound_prefix_if_needed, flush_outbound_label. destruct (effective_label (qc_label Q)) as [l|] eqn:E; cbn.
  - change (LABELED_TAG :: blen l mod 256 :: l) with (encode_label_prefix l). rewrite encode_label_prefix_header by auto. cbn. eexists _, _. split; [reflexivity|split; reflexivity].
  - eexists _, _. split; [reflexivity|split; reflexivity].
Qed.
(** nothing came in *)
Lemma idle_in b s : br_stream b = Some s -> br_terminal b = false -> br_eof b = false -> br_accum b = [] -> (exists o, br_rec b = mkR (r_gate r0) [] o (r_emitted r0) []) -> br_replay W B now b = b.
Proof.
  intros S T E A (o & R). destruct r0_shape as (g & em & E0 & _ & V). rewrite E0 in R. cbn in R. destruct b as [st r se fi eo ph dl co pr k1 ac mx]. cbn in *. subst st eo ac r.
  unfold br_replay. cbn [br_stream]. unfold br_pump_in. rewrite T. cbn [br_rec]. unfold rl_feed. cbn. rewrite V. cbn. reflexivity.
Qed.
Lemma seals b : br_kr b = kr -> br_comp b = qc_comp Q -> br_pre b = false -> br_unit B rnd now id frame b = Some u.
Proof.
  intros E1 E2 E3. unfold br_unit. rewrite E1, E2, E3. unfold encode_reliable_unit in HU. destruct (encrypt_payload B kr (rnd id now) (compress_payload B (qc_comp Q) frame)) as [p|]; [|discriminate].
  apply (f_equal (fun r => match r with Ok v => Some v | Err _ => None end)) in HU. exact HU.
Qed.
Lemma late_d : (d <=? now) = false.
Proof. apply N.leb_gt, HD. Qed.
Lemma tx1 : s_transmit now s1 = (s2, [frame]) /\ s_failed s1 = None /\ s_failed s2 = None /\ s_id s2 = id /\ s_transmit now s2 = (s2, []).
Proof.
  unfold s2, s1, stream_outbound. destruct frame as [|c fr]; [congruence|]. unfold s_transmit, s_late. cbn. rewrite ?late_d. destruct k; cbn; unfold s_transmit, s_late; cbn; rewrite ?late_d; repeat split; reflexivity.
Qed.
Lemma pump_b1 : br_pump_out B rnd now (br_replay W B now b1) = b2.
Proof.
  rewrite (idle_in b1 s1); [|reflexivity|reflexivity|reflexivity|reflexivity|]; [|destruct r0_shape as (g & em & E0 & _); change (br_rec b1) with r0; rewrite E0; cbn; eauto].
  destruct tx1 as (T1 & T2 & T3 & T4 & _). unfold br_pump_out. change (br_phase b1) with (BEst LActive). cbv iota. change (br_stream b1) with (Some s1). cbv iota. change (br_failed b1) with false. rewrite T2. cbn [orb].
  change (br_deadline b1) with d. rewrite late_d. cbn [andb]. rewrite T1. cbv iota zeta. rewrite T4. replace (concat [frame]) with frame by (cbn; now rewrite app_nil_r). rewrite seals by reflexivity.
  unfold br_finish. change (br_fin _) with false. change (br_failed _) with false. change (br_sent _) with true. reflexivity.
Qed.
Lemma pump_b2 : br_pump_out B rnd now (br_replay W B now b2) = b2.
Proof.
  rewrite (idle_in b2 s2); [|reflexivity|reflexivity|reflexivity|reflexivity|]; [|destruct r0_shape as (g & em & E0 & _); change (br_rec b2) with (rl_write r0 u); rewrite E0; eexists; reflexivity].
  destruct tx1 as (T1 & T2 & T3 & T4 & T5). unfold br_pump_out. change (br_phase b2) with (BEst LSendClosed). cbv iota. change (br_stream b2) with (Some s2). cbv iota. change (br_failed b2) with false. rewrite T3. cbn [orb].
  change (br_deadline b2) with d. rewrite late_d. cbn [andb]. rewrite T5. cbv iota zeta. rewrite T3. reflexivity.
Qed.
Lemma pump_b0 : br_pump_out B rnd now (br_replay W B now b0) = b0.
Proof. unfold br_replay, b0, br_new, br_pump_out. cbn. now rewrite late_d. Qed.

Lemma pump_x q b b' : aget x (q_conns q) = Some b -> br_pump_out B rnd now (br_replay W B now b) = b' -> br_terminal b' = false -> br_phase b' <> BEst LRecvClosed ->
  pump_one C W B rnd now q x = let q1 := maybe_shutdown x b' (q_set_log (q_log q ++ []) (q_set_ep (q_ep q) (q_set_conns (adel x (q_conns q)) q))) in q_set_pumped (oset x (q_pumped q1)) (q_set_conns (aset x b' (q_conns q1)) q1).
Proof.
  intros G E T P. unfold pump_one. rewrite G. cbv zeta. rewrite E, T. unfold br_drain_payload. destruct (br_phase b') as [|[]] eqn:PH; try congruence; cbn [drained map fst snd q_ep q_set_conns]; rewrite T; reflexivity.
Qed.
Lemma base_same oi q q' : q_ep q' = q_ep q -> q_kr q' = q_kr q -> (others q -> others q') -> base oi q -> base oi q'.
Proof. intros E1 E2 E3 [H1 H2 H3 H4 H5]. constructor; unfold q_runs in *; rewrite ?E1; auto. congruence. Qed.
Lemma others_put m q q' : q_ex q' = aset x m (q_ex q) -> others q -> others q'.
Proof. intros E O y m' G N. rewrite E, aget_aset_ne in G by exact N. eauto. Qed.
Definition v0 := (Some b0, Some m0, @nil (N * N * bytes), cons0, @nil teardown).
Definition v1 := (Some b1, Some m1, @nil (N * N * bytes), cons0, @nil teardown).
Definition v2 := (Some b2, Some m2, @nil (N * N * bytes), cons0, [TShutdown x]).
Definition v3 := (Some b3, Some m2, [(x, peer, sent0)], cons0, [TShutdown x]).
Lemma tds_one t : td_ex t = x -> tds_of x [t] = [t].
Proof. intros <-. unfold tds_of. cbn. now rewrite N.eqb_refl. Qed.
Lemma pump_v0 oi q : base oi q -> slot q = v0 /\ In x (q_unminted q) -> base oi (pump_one C W B rnd now q x) /\ (slot (pump_one C W B rnd now q x) = v0 /\ In x (q_unminted (pump_one C W B rnd now q x))).
Proof.
  intros BA (S & J). unfold slot, v0 in S. injection S as S1 S2 S3 S4 S5. rewrite (pump_x q b0 b0 S1 pump_b0 eq_refl ltac:(discriminate)). unfold maybe_shutdown. change (br_fin b0) with false. cbn [negb]. cbv zeta. split; [eapply base_same; [| | |exact BA]; auto|].
  split; [|exact J]. unfold slot, v0. cbn [q_conns q_ex q_out q_con q_td q_set_pumped q_set_conns q_set_log q_set_ep]. rewrite aget_aset_eq. now rewrite S2, S3, S4, S5.
Qed.
Lemma pump_v1 oi q : base oi q -> slot q = v1 -> base oi (pump_one C W B rnd now q x) /\ (slot (pump_one C W B rnd now q x) = v2 /\ In x (q_pumped (pump_one C W B rnd now q x))).
Proof.
  intros BA S. unfold slot, v1 in S. injection S as S1 S2 S3 S4 S5. rewrite (pump_x q b1 b2 S1 pump_b1 eq_refl ltac:(discriminate)). unfold maybe_shutdown. change (br_fin b2) with true. cbn [negb q_ex q_set_log q_set_ep q_set_conns]. rewrite S2. cbn [x_fin m1 m0 x_set_mint].
  cbv zeta. split; [eapply base_same; [| | |exact BA]; auto; now apply (others_put m2)|]. split; [|cbn; apply (in_oset rnd); auto]. unfold slot, v2. cbn [q_conns q_ex q_out q_con q_td q_set_pumped q_set_conns push_td q_set_td q_set_ex q_set_log q_set_ep].
  rewrite !aget_aset_eq, S3, S4, tds_app, S5, tds_one by reflexivity. reflexivity.
Qed.
Lemma pump_v2 oi q : base oi q -> slot q = v2 /\ In x (q_pumped q) -> base oi (pump_one C W B rnd now q x) /\ (slot (pump_one C W B rnd now q x) = v2 /\ In x (q_pumped (pump_one C W B rnd now q x))).
Proof.
  intros BA (S & J). unfold slot, v2 in S. injection S as S1 S2 S3 S4 S5. rewrite (pump_x q b2 b2 S1 pump_b2 eq_refl ltac:(discriminate)). unfold maybe_shutdown. change (br_fin b2) with true. cbn [negb q_ex q_set_log q_set_ep q_set_conns]. rewrite S2. cbn [x_fin m2 x_set_fin].
  cbv zeta. split; [eapply base_same; [| | |exact BA]; auto|]. split; [|cbn; apply (in_oset rnd); auto]. unfold slot, v2. cbn [q_conns q_ex q_out q_con q_td q_set_pumped q_set_conns push_td q_set_td q_set_ex q_set_log q_set_ep].
  rewrite aget_aset_eq, S2, S3, S4, S5. reflexivity.
Qed.
Lemma b0_up : br_handshaking b0 = false.
Proof. destruct r0_shape as (g & em & E0 & V & _). unfold br_handshaking. change (br_phase b0) with BHandshaking. change (br_rec b0) with r0. rewrite E0. exact V. Qed.
Lemma mint_v0 q : base (Some i0) q -> slot q = v0 -> base None (mint_one C W now q x) /\ (slot (mint_one C W now q x) = v1 /\ In x (q_dirty (mint_one C W now q x))).
Proof.
  intros BA S. unfold slot, v0 in S. injection S as S1 S2 S3 S4 S5. unfold mint_one. rewrite S1. change (br_terminal b0) with false. rewrite b0_up, S2. cbn [x_mint m0]. cbv zeta. rewrite call_eq. destruct BA as [H1 H2 H3 H4 (H5 & H6)].
  cbn [fst snd q_ep mark_dirty q_set_dirty q_set_ex ep_step]. unfold dial_succeeded. rewrite H5. cbn [in_deadline i0]. rewrite late_d. unfold q_runs in H2. rewrite H2. cbn [negb orb fst snd in_peer in_kind in_msg i0].
  unfold promote_in. cbn [q_conns q_set_log q_set_ep mark_dirty q_set_dirty q_set_ex]. rewrite S1. split.
  - constructor.
    + cbn [q_ep q_set_conns q_set_log q_set_ep]. pose proof (einv_op C (q_ep q) (EDialOk id now) H1) as I. cbn [ep_step] in I. unfold dial_succeeded in I. rewrite H5 in I. cbn [in_deadline i0] in I. rewrite late_d, H2 in I. exact I.
    + exact H2.
    + exact H3.
    + apply (others_put m1 q); [reflexivity|exact H4].
    + split; [|exact H6]. cbn. apply aget_adel_eq.
  - split; [|cbn; apply (in_oset rnd); auto]. unfold slot, v1. cbn [q_conns q_ex q_out q_con q_td q_set_conns q_set_ex q_set_log q_set_ep mark_dirty q_set_dirty].
    rewrite !aget_aset_eq, S3, S4, S5, HF. reflexivity.
Qed.
Lemma mint_v1 oi q : base oi q -> slot q = v1 /\ In x (q_dirty q) -> base oi (mint_one C W now q x) /\ (slot (mint_one C W now q x) = v1 /\ In x (q_dirty (mint_one C W now q x))).
Proof.
  intros BA (S & J). pose proof S as S0. unfold slot, v1 in S. injection S as S1 S2 S3 S4 S5. unfold mint_one. rewrite S1. change (br_terminal b1) with false. change (br_handshaking b1) with false. rewrite S2. cbn [x_mint m1 m0 x_set_mint].
  split; [eapply base_same; [| | |exact BA]; auto|]. split; [exact S0|exact J].
Qed.
Lemma sent_out : r_out (rl_write r0 u) = sent0 /\ r_out (fst (rl_transmit (rl_write r0 u))) = [].
Proof. destruct r0_shape as (g & em & E0 & _). rewrite E0. split; reflexivity. Qed.
Hypothesis HU0 : u <> [].
Lemma collect_v2 oi q : base oi q -> slot q = v2 -> base oi (collect_one q x) /\ slot (collect_one q x) = v3.
Proof.
  intros BA S. unfold slot, v2 in S. injection S as S1 S2 S3 S4 S5. unfold collect_one. rewrite S1. unfold collect. cbn [q_ex q_set_conns]. rewrite S2. destruct sent_out as (E1 & E2).
  assert (ET : rl_transmit (br_rec b2) = (fst (rl_transmit (rl_write r0 u)), sent0)) by (rewrite <- E1; reflexivity). rewrite ET. cbn [x_peer m2 m1 m0 x_set_fin x_set_mint].
  assert (NE : sent0 <> []) by (unfold sent0; destruct u; [congruence|]; intros H; apply app_eq_nil in H as (_ & H); discriminate). destruct sent0 as [|c r] eqn:ES; [congruence|]. rewrite <- ES.
  split; [eapply base_same; [| | |exact BA]; auto|]. unfold slot, v3. cbn [q_conns q_ex q_out q_con q_td q_set_conns q_set_out]. rewrite aget_aset_eq, S2, S4, S5, outs_app, S3. unfold outs_of. cbn [filter fst]. rewrite N.eqb_refl. reflexivity.
Qed.
Lemma collect_v3 oi q : base oi q -> slot q = v3 -> base oi (collect_one q x) /\ slot (collect_one q x) = v3.
Proof.
  intros BA S. unfold slot, v3 in S. injection S as S1 S2 S3 S4 S5. unfold collect_one. rewrite S1. unfold collect. cbn [q_ex q_set_conns]. rewrite S2. destruct sent_out as (E1 & E2).
  assert (ET : rl_transmit (br_rec b3) = (fst (rl_transmit (rl_write r0 u)), [])) by (unfold b3 at 1; cbn [br_rec br_set_rec]; unfold rl_transmit at 1; rewrite E2; unfold rl_transmit; reflexivity). rewrite ET.
  split; [eapply base_same; [| | |exact BA]; auto|]. unfold slot, v3. cbn [q_conns q_ex q_out q_con q_td q_set_conns q_set_out]. rewrite aget_aset_eq, S2, S3, S4, S5. reflexivity.
Qed.
(** all of [flush_outbound] *)
Lemma flush_sends q : base (Some i0) q -> slot q = v0 -> In x (q_unminted q) -> In x (q_dirty q) -> base None (flush C W B rnd now q) /\ slot (flush C W B rnd now q) = v3.
Proof.
  intros BA S JU JD. unfold flush.
  assert (K0 : forall q q', keep q q' -> slot q = v0 /\ In x (q_unminted q) -> slot q' = v0 /\ In x (q_unminted q')) by (intros a b K (A1 & A2); split; [rewrite (ke_s _ _ K); exact A1|now apply (ke_u _ _ K)]).
  assert (K1 : forall q q', keep q q' -> slot q = v1 /\ In x (q_dirty q) -> slot q' = v1 /\ In x (q_dirty q')) by (intros a b K (A1 & A2); split; [rewrite (ke_s _ _ K); exact A1|now apply (ke_d _ _ K)]).
  assert (K2 : forall q q', keep q q' -> slot q = v2 /\ In x (q_pumped q) -> slot q' = v2 /\ In x (q_pumped q')) by (intros a b K (A1 & A2); split; [rewrite (ke_s _ _ K); exact A1|now apply (ke_p _ _ K)]).
  assert (KS : forall v q q', keep q q' -> slot q = v -> slot q' = v) by (intros v a b K A1; rewrite (ke_s _ _ K); exact A1).
  assert (P1 : base (Some i0) (pump_all C W B rnd now q) /\ (slot (pump_all C W B rnd now q) = v0 /\ In x (q_unminted (pump_all C W B rnd now q)))).
  { apply (through (pump_one C W B rnd now) (Some i0) (Some i0) (fun q => slot q = v0 /\ In x (q_unminted q)) (fun q => slot q = v0 /\ In x (q_unminted q)) (fun oi q y => aside_pump_one oi now q y) K0 K0 (pump_v0 (Some i0)) (pump_v0 (Some i0)) (q_dirty q) (q_set_dirty [] q) JD); [eapply base_same; [| | |exact BA]; auto|split; [exact S|exact JU]]. }
  set (q1 := pump_all C W B rnd now q) in *. clearbody q1. destruct P1 as (B1 & S1 & J1).
  assert (P2 : base None (mint_all C W now q1) /\ (slot (mint_all C W now q1) = v1 /\ In x (q_dirty (mint_all C W now q1)))).
  { apply (through (mint_one C W now) (Some i0) None (fun q => slot q = v0) (fun q => slot q = v1 /\ In x (q_dirty q)) (fun oi q y => aside_mint_one oi now q y) (KS v0) K1 mint_v0 (mint_v1 None) (q_unminted q1) (q_set_unminted [] q1) J1); [eapply base_same; [| | |exact B1]; auto|exact S1]. }
  set (q2 := mint_all C W now q1) in *. clearbody q2. destruct P2 as (B2 & S2 & J2).
  assert (P3 : base None (pump_all C W B rnd now q2) /\ (slot (pump_all C W B rnd now q2) = v2 /\ In x (q_pumped (pump_all C W B rnd now q2)))).
  { apply (through (pump_one C W B rnd now) None None (fun q => slot q = v1) (fun q => slot q = v2 /\ In x (q_pumped q)) (fun oi q y => aside_pump_one oi now q y) (KS v1) K2 (pump_v1 None) (pump_v2 None) (q_dirty q2) (q_set_dirty [] q2) J2); [eapply base_same; [| | |exact B2]; auto|exact S2]. }
  set (q3 := pump_all C W B rnd now q2) in *. clearbody q3. destruct P3 as (B3 & S3 & J3).
  apply (through collect_one None None (fun q => slot q = v2) (fun q => slot q = v3) (fun oi q y => aside_collect_one oi q y) (KS v2) (KS v3) (collect_v2 None) (collect_v3 None) (q_pumped q3) (q_set_pumped [] q3) J3); [eapply base_same; [| | |exact B3]; auto|exact S3].
Qed.
End Stages.
End Send.

(** ** From the call *)
Section Start.
Context (C : cfg) (Q : qcfg) (W : wcodec) (B : backends) (rnd : N -> N -> option bytes).
(** a call that asks for one dial *)
Definition opens (e : ep) (o : eop) (i : intent) : Prop :=
  let e1 := fst (ep_step C e o) in
  snd (ep_step C e o) = [OId (e_sid e)] /\ e_int e1 = aset (e_sid e) i (e_int e) /\ e_probes e1 = e_probes e /\
  k_ev (e_core e1) = k_ev (e_core e) ++ [EvDial (e_sid e) (in_peer i) (in_deadline i)] /\ runs e1 = true.
Lemma announce_opens e peer k d m : runs e = true ->
  let r := announce C (open_intent peer k d m e) in let i := mkIntent peer k d m in
  fst r = e_sid e /\ e_int (snd r) = aset (e_sid e) i (e_int e) /\ e_probes (snd r) = e_probes e /\ k_ev (e_core (snd r)) = k_ev (e_core e) ++ [EvDial (e_sid e) peer d] /\ runs (snd r) = true.
Proof.
  intros R. cbv zeta. unfold open_intent, alloc_sid. change (runs (e_set_sid (e_sid e + 1) e)) with (runs e). rewrite R. cbn [negb announce]. unfold insert_intent. cbn [e_int e_set_int]. rewrite aget_aset_eq. cbn [fst snd in_peer in_deadline]. repeat split. exact R.
Qed.
Lemma user_opens e peer data now : runs e = true -> opens e (EUserMsg peer data now) (mkIntent peer OKUserMessage (tadd now (c_stream_timeout C)) (MUserData data)).
Proof.
  intros R. pose proof (announce_opens e peer OKUserMessage (tadd now (c_stream_timeout C)) (MUserData data) R) as H. cbv zeta in H. unfold opens. cbn [ep_step]. rewrite R. unfold user_message_direct. rewrite R. cbn [negb].
  destruct (announce C _) as [j e1]. cbn [fst snd] in *. destruct H as (-> & H). split; [reflexivity|exact H].
Qed.
Lemma pushpull_opens e peer join now : runs e = true -> opens e (EPushPull peer join now) (mkIntent peer (OKPushPull join) (tadd now (c_stream_timeout C)) (MPushPull join (local_states e) (e_snap e))).
Proof.
  intros R. pose proof (announce_opens e peer (OKPushPull join) (tadd now (c_stream_timeout C)) (MPushPull join (local_states e) (e_snap e)) R) as H. cbv zeta in H. unfold opens. cbn [ep_step]. unfold push_pull_direct.
  destruct (announce C _) as [j e1]. cbn [fst snd] in *. destruct H as (-> & H). split; [reflexivity|exact H].
Qed.
Lemma reliable_opens e id addr seq d : runs e = true -> opens e (EReliable id addr seq d) (mkIntent addr (OKReliablePing seq) d (MPing seq (lnode C) (mkNode id addr))).
Proof.
  intros R. pose proof (announce_opens e addr (OKReliablePing seq) d (MPing seq (lnode C) (mkNode id addr)) R) as H. cbv zeta in H. unfold opens. cbn [ep_step]. unfold reliable_ping_direct.
  destruct (announce C _) as [j e1]. cbn [fst snd] in *. destruct H as (-> & H). split; [reflexivity|exact H].
Qed.
Lemma calls_dials {A} (f : A -> option N * eop) l : forall q, q_dials (fold_left (fun q a => call_ C (fst (f a)) (snd (f a)) q) l q) = q_dials q /\ q_next (fold_left (fun q a => call_ C (fst (f a)) (snd (f a)) q) l q) = q_next q.
Proof. induction l as [|a l IH]; intros q; [auto|]. cbn [fold_left]. destruct (IH (call_ C (fst (f a)) (snd (f a)) q)) as (-> & ->). unfold call_. rewrite call_eq. auto. Qed.
Lemma sieve_dials q : q_dials (sieve C q) = q_dials q ++ dials_in (k_ev (e_core (q_ep q))) /\ q_next (sieve C q) = q_next q.
Proof.
  unfold sieve. cbv zeta. destruct (calls_dials (fun ev : event => (None, ERequeue ev)) (filter (fun ev => negb (is_dial ev)) (k_ev (e_core (q_ep q))))
    (q_set_dials (q_dials (fold_left (fun q (_ : event) => call_ C None EPollEvent q) (k_ev (e_core (q_ep q))) q) ++ dials_in (k_ev (e_core (q_ep q)))) (fold_left (fun q (_ : event) => call_ C None EPollEvent q) (k_ev (e_core (q_ep q))) q))) as (E1 & E2).
  cbn [fst snd] in E1, E2. destruct (calls_dials (fun _ : event => (None, EPollEvent)) (k_ev (e_core (q_ep q))) q) as (E3 & E4). cbn [fst snd] in E3, E4.
  split; [etransitivity; [exact E1|]; cbn [q_dials q_set_dials]; now rewrite E3|]. etransitivity; [exact E2|exact E4].
Qed.
Lemma dial_next now q t : q_next q <= q_next (dial_one C Q now q t).
Proof. destruct t as [[s p] d]. unfold dial_one. cbv zeta. destruct (d <=? now); [|cbn; lia]. unfold call_. rewrite call_eq. cbn. lia. Qed.
Lemma dials_next now l : forall q, q_next q <= q_next (fold_left (dial_one C Q now) l q).
Proof. induction l as [|t l IH]; intros q; [cbn; lia|]. cbn [fold_left]. eapply N.le_trans; [apply (dial_next now q t)|apply IH]. Qed.
(** the dials before ours *)
Lemma aside_dials id x kr oi now l : forall q, q_next (fold_left (dial_one C Q now) l q) <= x -> Forall (fun t => fst (fst t) <> id) l -> aside C id x kr oi q (fold_left (dial_one C Q now) l q).
Proof.
  induction l as [|t l IH]; intros q LT F; [apply aside_refl|]. apply Forall_cons_iff in F as (F1 & F2). cbn [fold_left] in *. eapply aside_trans; [|now apply IH].
  apply aside_dial_one; [exact rnd| |exact F1]. eapply N.le_trans; [apply (dials_next now l)|exact LT].
Qed.
Theorem start_sends o xk now q i frame u : fresh C q -> (forall x, q_next q <= x -> sl x q = empty) -> opens (q_ep q) o i -> quiet o ->
  (forall l, effective_label (qc_label Q) = Some l -> valid_label l) -> now < in_deadline i -> wire_enc W (in_msg i) = frame -> frame <> [] ->
  encode_reliable_unit B (qc_comp Q) (q_kr q) (rnd (e_sid (q_ep q)) now) frame = Ok u -> u <> [] ->
  let q' := fst (CoordModel.start C Q W B rnd o xk now q) in
  snd (CoordModel.start C Q W B rnd o xk now q) = Some (e_sid (q_ep q)) /\
  exists x b m, q_next q <= x /\ slot x q' = (Some b, Some m, [(x, in_peer i, match effective_label (qc_label Q) with Some l => header l | None => [] end ++ u)], [(x, in_peer i, e_sid (q_ep q))], [TShutdown x]).
Proof.
  intros F SE (O1 & O2 & O3 & O4 & O5) NQ HL HD HF HN HU HU0. cbv zeta. unfold CoordModel.start. rewrite call_eq. cbn [q_ep q_set_last]. rewrite O1. cbn [fst snd]. split; [reflexivity|].
  set (id := e_sid (q_ep q)) in *. set (e1 := fst (ep_step C (q_ep q) o)) in *.
  match goal with |- context [dial_all C Q now ?a] => set (q2 := a) end.
  assert (EP : q_ep q2 = e1) by reflexivity. assert (EX : q_ex q2 = q_ex q) by reflexivity. assert (ED : q_dials q2 = q_dials q) by reflexivity. assert (EK : q_kr q2 = q_kr q) by reflexivity. assert (EN : q_next q2 = q_next q) by reflexivity.
  assert (ES : forall x, slot x q2 = slot x q) by reflexivity. assert (I1 : einv C e1) by (apply einv_op, F). clearbody q2.
  destruct (sieve_dials q2) as (SD & SN). rewrite ED, EP, O4 in SD. unfold dials_in in SD. rewrite flat_map_app in SD. cbn [flat_map app] in SD. rewrite app_assoc in SD. change (flat_map _ (k_ev (e_core (q_ep q)))) with (dials_in (k_ev (e_core (q_ep q)))) in SD.
  set (pre := q_dials q ++ dials_in (k_ev (e_core (q_ep q)))) in SD. assert (FP : Forall (fun t => fst (fst t) <> id) pre).
  { unfold pre. apply Forall_app. split; [eapply Forall_impl; [|exact (fr_d _ _ F)]|eapply Forall_impl; [|apply (dials_below id), (fr_k _ _ F)]]; cbn; intros t H E; subst id; lia. }
  clearbody pre. unfold dial_all. unfold q_runs. rewrite EP, O5. cbn [negb]. rewrite SD, fold_left_app. cbn [fold_left].
  set (q4 := q_set_dials [] (sieve C q2)). set (qa := fold_left (dial_one C Q now) pre q4). set (x := q_next qa).
  assert (LX : q_next q <= x) by (unfold x, qa; eapply N.le_trans; [|apply (dials_next now pre)]; unfold q4; cbn; lia).
  assert (BA : base C id x (q_kr q) (Some (mkIntent (in_peer i) (in_kind i) (in_deadline i) (in_msg i))) q2).
  { replace (mkIntent _ _ _ _) with i by (destruct i; reflexivity). constructor.
    - rewrite EP. exact I1.
    - unfold q_runs. rewrite EP. exact O5.
    - exact EK.
    - intros y m G _ M. rewrite EX in G. pose proof (fresh_get C y m q F G) as MB. unfold mint_below in MB. rewrite M in MB. subst id. lia.
    - rewrite EP. split; [rewrite O2; apply aget_aset_eq|]. unfold norid. rewrite O3. apply Forall_forall. intros [s p] J. cbn [snd]. destruct (EndpointModel.p_phase p) as [|? ? ? [r|] ?] eqn:PH; auto. pose proof (ei_rid _ _ (fr_e _ _ F) s p) as RR.
      assert (G : aget s (e_probes (q_ep q)) = Some p) by (apply aget_of_in; [apply (ei_pnd _ _ (fr_e _ _ F))|exact J]). specialize (RR _ _ _ _ _ G PH). subst id. lia. }
  assert (S2 : slot x q2 = (None, None, [], [], [])).
  { rewrite ES. specialize (SE x LX). unfold sl, empty in SE. injection SE as E1 E2 E3 E4 E5 _. unfold slot. rewrite E1, E2, E3, E4, E5. reflexivity. }
  destruct (aside_trans _ _ _ _ _ _ _ _ (aside_sieve C id x (q_kr q) _ q2) (aside_trans _ _ _ _ _ (sieve C q2) q4 qa ltac:(apply aside_still; auto) (aside_dials id x (q_kr q) _ now pre q4 ltac:(reflexivity) FP)) BA) as (BB & KK).
  pose proof (ke_s _ _ _ KK) as S4. rewrite S2 in S4. clearbody qa. clear BA KK. set (dd := dial_one C Q now qa _).
  assert (LD : (in_deadline i <=? now) = false) by now apply N.leb_gt.
  set (kd := aget id (q_kinds qa)).
  assert (DD : base C id x (q_kr q) (Some (mkIntent (in_peer i) (in_kind i) (in_deadline i) (in_msg i))) dd /\ slot x dd = v0 C Q id x (q_kr q) (in_peer i) (in_deadline i) kd /\ In x (q_unminted dd) /\ In x (q_dirty dd)).
  { unfold dd, dial_one. fold kd. cbv zeta. rewrite LD. change (q_next (q_set_kinds (adel id (q_kinds qa)) qa)) with x. split; [|split; [|split]].
    - eapply (base_same C id x); [| | |exact BB]; auto. apply (others_put id x (mkX (in_peer i) (Some (MOut id)) false kd true)). reflexivity.
    - unfold slot in *. injection S4 as E1 E2 E3 E4 E5. unfold v0, b0, m0, cons0, r0. cbn [q_conns q_ex q_out q_con q_td q_kr q_set_con q_set_ex q_set_next q_set_conns q_set_kinds mark_unminted mark_dirty q_set_unminted q_set_dirty].
      rewrite !aget_aset_eq, E3, E5, cons_app, E4, (ba_k _ _ _ _ _ _ BB). unfold cons_of. cbn [filter fst app]. rewrite N.eqb_refl. reflexivity.
    - cbn. apply (in_oset rnd). auto.
    - cbn. apply (in_oset rnd). auto. }
  clearbody dd. destruct DD as (D1 & D2 & D3 & D4). exists x.
  destruct (flush_sends C Q W B rnd id x (q_kr q) (in_peer i) (in_deadline i) now (in_kind i) (in_msg i) kd frame u HL HD HF HN HU HU0 dd D1 D2 D3 D4) as (_ & D5).
  unfold v3, sent0, cons0 in D5. eexists _, _. split; [exact LX|exact D5].
Qed.
End Start.
