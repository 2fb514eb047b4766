(** What an exchange is about does not change, and its report says so: peer,
    kind and side are those it was created with. *)
From Verif Require Import CodecModel.
From Verif Require Import Base BaseFacts MapFacts CoreFacts EndpointInv CoordModel BridgeFacts CoordFacts CoordRuns CoordSteps CoordFrame.
Local Open Scope N_scope.

Section Meta.
Context (C : cfg) (Q : qcfg) (W : wcodec) (B : backends) (rnd : N -> N -> option bytes).
Definition same_meta (m m' : xmeta) : Prop := x_peer m' = x_peer m /\ x_kind m' = x_kind m /\ x_outbound m' = x_outbound m.
Definition told (q : coord) (p : option N * eop) : Prop :=
  match p with
  | (Some _, ERequeue (EvExchange x peer _ k)) => (exists m, aget x (q_ex q) = Some m /\ x_peer m = peer /\ x_kind m = Some k) \/ q_next q <= x
  | _ => True
  end.
Record mt (q q' : coord) : Prop := {
  mt_next : q_next q <= q_next q';
  mt_meta : forall x m', aget x (q_ex q') = Some m' -> (exists m, aget x (q_ex q) = Some m /\ same_meta m m') \/ q_next q <= x;
  mt_told : exists l, q_log q' = q_log q ++ l /\ Forall (told q) l }.
Lemma same_refl m : same_meta m m.
Proof. now split. Qed.
Lemma same_trans a b c : same_meta a b -> same_meta b c -> same_meta a c.
Proof. intros (A1 & A2 & A3) (B1 & B2 & B3). split; [congruence|split; congruence]. Qed.
Lemma mt_refl q : mt q q.
Proof. constructor; [lia| |exists []; split; [symmetry; apply app_nil_r|constructor]]. intros x m G. left. exists m. split; [exact G|apply same_refl]. Qed.
Lemma told_back a b p : mt a b -> told b p -> told a p.
Proof.
  intros [N1 M1 _]. destruct p as [[y|] []]; cbn; auto. destruct ev; cbn; auto. intros [(m & G & P & K)|L]; [|right; lia]. destruct (M1 _ _ G) as [(m0 & G0 & (S1 & S2 & S3))|L]; [|now right].
  left. exists m0. split; [exact G0|]. split; congruence.
Qed.
Lemma mt_trans a b c : mt a b -> mt b c -> mt a c.
Proof.
  intros M1 M2. pose proof (fun p => told_back a b p M1) as TB. destruct M1 as [A1 A2 (l1 & A3 & A4)], M2 as [B1 B2 (l2 & B3 & B4)]. constructor; [lia| |].
  - intros x m' G. destruct (B2 _ _ G) as [(m & G1 & S1)|L]; [|right; lia]. destruct (A2 _ _ G1) as [(m0 & G0 & S0)|L]; [|now right]. left. exists m0. split; [exact G0|]. eapply same_trans; eauto.
  - exists (l1 ++ l2). rewrite B3, A3, app_assoc. split; [reflexivity|]. apply Forall_app. split; [exact A4|]. eapply Forall_impl; [|exact B4]. exact TB.
Qed.
Lemma mt_fold {A} (f : coord -> A -> coord) l : (forall q a, mt q (f q a)) -> forall q, mt q (fold_left f l q).
Proof. intros H. induction l as [|a l IH]; intros q; [apply mt_refl|]. cbn [fold_left]. eapply mt_trans; [apply H|apply IH]. Qed.
Lemma mt_still q q' : q_log q' = q_log q -> q_ex q' = q_ex q -> q_next q' = q_next q -> mt q q'.
Proof.
  intros E1 E2 E3. constructor; [rewrite E3; lia| |exists []; rewrite E1; split; [symmetry; apply app_nil_r|constructor]]. intros x m G. rewrite E2 in G. left. exists m. split; [exact G|apply same_refl].
Qed.
Ltac still := apply mt_still; reflexivity.
Lemma mt_del x q : mt q (q_set_ex (adel x (q_ex q)) q).
Proof.
  constructor; cbn; [lia| |exists []; split; [symmetry; apply app_nil_r|constructor]]. intros y m G. destruct (N.eq_dec y x) as [->|NE]; [now rewrite aget_adel_eq in G|]. rewrite aget_adel_ne in G by exact NE. left. exists m. split; [exact G|apply same_refl].
Qed.
Lemma mt_put x m m0 q : aget x (q_ex q) = Some m0 -> same_meta m0 m -> mt q (q_set_ex (aset x m (q_ex q)) q).
Proof.
  intros G0 S0. constructor; cbn; [lia| |exists []; split; [symmetry; apply app_nil_r|constructor]]. intros y m' G. left. destruct (N.eq_dec y x) as [->|NE].
  - rewrite aget_aset_eq in G. injection G as <-. eauto.
  - rewrite aget_aset_ne in G by exact NE. exists m'. split; [exact G|apply same_refl].
Qed.
(** a new exchange under the next number *)
Lemma mt_new m q q' : q_log q' = q_log q -> q_next q' = q_next q + 1 -> q_ex q' = aset (q_next q) m (q_ex q) -> mt q q'.
Proof.
  intros E1 E2 E3. constructor; [lia| |exists []; rewrite E1; split; [symmetry; apply app_nil_r|constructor]]. intros y m' G. rewrite E3 in G. destruct (N.eq_dec y (q_next q)) as [->|NE]; [right; lia|].
  rewrite aget_aset_ne in G by exact NE. left. exists m'. split; [exact G|apply same_refl].
Qed.
Lemma mt_call ox o q : told q (ox, o) -> mt q (call_ C ox o q).
Proof.
  intros T. unfold call_. rewrite call_eq. constructor; cbn; [lia| |exists [(ox, o)]; split; [reflexivity|now constructor]]. intros x m G. left. exists m. split; [exact G|apply same_refl].
Qed.
Lemma mt_call0 o q : mt q (call_ C None o q).
Proof. now apply mt_call. Qed.
Lemma mt_drained x r q : Forall (fun o => exists ev now, o = EStreamEv ev now) (snd r) -> mt q (snd (drained x r q)).
Proof.
  destruct r as [[b e] l]. cbn [snd drained]. intros F. constructor; cbn; [lia| |].
  - intros y m G. left. exists m. split; [exact G|apply same_refl].
  - exists (map (fun o => (Some x, o)) l). split; [reflexivity|]. induction F as [|o l (ev & now & ->) F IH]; constructor; [exact Logic.I|exact IH].
Qed.
Lemma mt_collect x b q : mt q (snd (collect x b q)).
Proof. unfold collect. destruct (aget x (q_ex q)); [|apply mt_refl]. cbn. destruct (r_out (br_rec b)); [apply mt_refl|still]. Qed.
Lemma call_ex ox o v q : call_ C ox o (q_set_ex v q) = q_set_ex v (call_ C ox o q).
Proof. unfold call_. rewrite !call_eq. reflexivity. Qed.
(** the report, made as the exchange goes *)
Lemma mt_report x ok m q (t : teardown) : aget x (q_ex q) = Some m ->
  mt q (match x_kind m with Some k => call_ C (Some x) (ERequeue (EvExchange x (x_peer m) ok k)) (q_set_ex (adel x (q_ex q)) q) | None => q_set_ex (adel x (q_ex q)) q end).
Proof.
  intros G. destruct (x_kind m) as [k|] eqn:K; [|apply mt_del]. rewrite call_ex. eapply mt_trans; [apply mt_call with (ox := Some x) (o := ERequeue (EvExchange x (x_peer m) ok k)); left; exists m; auto|].
  set (q1 := call_ C _ _ q). assert (E : q_ex q1 = q_ex q) by (unfold q1, call_; rewrite call_eq; reflexivity). rewrite <- E. apply mt_del.
Qed.
Lemma mt_reap x b q : mt q (reap C x b q).
Proof.
  unfold reap. cbv zeta. set (q1 := if br_failed b then purge x q else snd (collect x b q)). assert (F1 : mt q q1) by (subst q1; destruct (br_failed b); [still|apply mt_collect]). clearbody q1.
  eapply mt_trans; [exact F1|]. destruct (aget x (q_ex q1)) as [m|] eqn:G.
  - pose proof (mt_report x (negb (br_failed b)) m q1 (TClose x) G) as R. set (q2 := match x_kind m with Some _ => _ | None => _ end) in *. eapply mt_trans; [exact R|]. clearbody q2.
    set (q3 := match x_mint m with Some (MOut sid) => call_ C (Some x) (EDialFail sid) q2 | _ => q2 end). assert (F3 : mt q2 q3) by (subst q3; destruct (x_mint m) as [[]|]; try apply mt_refl; now apply mt_call). eapply mt_trans; [exact F3|still].
  - eapply mt_trans; [apply (mt_del x)|still].
Qed.
Lemma mt_shutdown x b q : mt q (maybe_shutdown x b q).
Proof.
  unfold maybe_shutdown. destruct (negb _); [apply mt_refl|]. destruct (aget x (q_ex q)) as [m|] eqn:M; [|apply mt_refl]. destruct (x_fin m); [apply mt_refl|]. eapply mt_trans; [eapply mt_put with (m := x_set_fin true m); [exact M|now split]|still].
Qed.
Lemma mt_pump_one now q x : mt q (pump_one C W B rnd now q x).
Proof.
  unfold pump_one. destruct (aget x (q_conns q)) as [b0|]; [|apply mt_refl]. set (q1 := q_set_conns _ q). assert (F1 : mt q q1) by still. clearbody q1.
  eapply mt_trans; [exact F1|]. set (b := br_pump_out _ _ _ _). clearbody b.
  assert (RE : forall b q2, mt q2 (let '(b, q) := drained x (br_drain_reap C W B rnd now b (q_ep q2)) q2 in reap C x b q)).
  { intros b1 q2. pose proof (reap_calls C W B rnd now b1 (q_ep q2)) as H. destruct (br_drain_reap C W B rnd now b1 (q_ep q2)) as [[b2 e2] l]. destruct H as (E & F).
    pose proof (mt_drained x (b2, e2, l) q2 F) as D. destruct (drained x (b2, e2, l) q2) as [b3 q3]. eapply mt_trans; [exact D|apply mt_reap]. }
  destruct (br_terminal b); [apply RE|]. pose proof (payload_calls C W B rnd now b (q_ep q1)) as H. destruct (br_drain_payload C W B rnd now b (q_ep q1)) as [[b2 e2] l]. destruct H as (E & F).
  pose proof (mt_drained x (b2, e2, l) q1 F) as D. destruct (drained x (b2, e2, l) q1) as [b3 q3]. eapply mt_trans; [exact D|]. destruct (br_terminal b3); [apply RE|].
  cbv zeta. eapply mt_trans; [apply (mt_shutdown x b3)|still].
Qed.
Lemma mt_pump_all now q : mt q (pump_all C W B rnd now q).
Proof. unfold pump_all. eapply mt_trans with (b := q_set_dirty [] q); [still|]. apply mt_fold. intros. apply mt_pump_one. Qed.
Lemma mt_cancel x q : mt q (cancel x q).
Proof. unfold cancel. eapply mt_trans with (b := q_set_conns (adel x (q_conns q)) q); [still|]. eapply mt_trans; [apply (mt_del x)|still]. Qed.
Lemma mt_retire x q : mt q (retire_dial C x q).
Proof.
  unfold retire_dial. set (q1 := q_set_conns _ _). assert (F1 : mt q q1) by still. clearbody q1. eapply mt_trans; [exact F1|]. cbv zeta.
  destruct (aget x (q_ex q1)) as [m|] eqn:G; [|eapply mt_trans; [apply (mt_del x)|still]]. eapply mt_trans; [apply (mt_report x false m q1 (TAbort x) G)|still].
Qed.
Lemma mt_promote x s q : mt q (promote_in x s q).
Proof. unfold promote_in. destruct (aget x (q_conns q)); [still|apply mt_refl]. Qed.
Lemma mt_mint_one now q x : mt q (mint_one C W now q x).
Proof.
  unfold mint_one. destruct (aget x (q_conns q)) as [b|]; [|apply mt_refl]. destruct (br_terminal b); [apply mt_refl|]. destruct (br_handshaking b); [still|].
  destruct (aget x (q_ex q)) as [m|] eqn:M; [|still]. destruct (x_mint m) as [[sid|from]|]; [| |still]; cbv zeta.
  all: assert (F1 : mt q (mark_dirty x (q_set_ex (aset x (x_set_mint None m) (q_ex q)) q))) by (eapply mt_trans; [eapply mt_put with (m := x_set_mint None m); [exact M|now split]|still]); set (q1 := mark_dirty _ _) in *; clearbody q1.
  - pose proof (mt_call (Some x) (EDialOk sid now) q1 Logic.I) as F2. unfold call_ in F2. destruct (call C (Some x) (EDialOk sid now) q1) as [q2 outs]. cbn [fst] in F2. eapply mt_trans; [exact F1|]. eapply mt_trans; [exact F2|].
    destruct outs as [|[] [|]]; try apply mt_retire. all: destruct req as [[k msg]|]; try apply mt_retire; apply mt_promote.
  - pose proof (mt_call (Some x) (EAccept from now) q1 Logic.I) as F2. unfold call_ in F2. destruct (call C (Some x) (EAccept from now) q1) as [q2 outs]. cbn [fst] in F2. eapply mt_trans; [exact F1|]. eapply mt_trans; [exact F2|].
    destruct outs as [|[] [|]]; try apply mt_cancel. all: destruct req; try apply mt_cancel; apply mt_promote.
Qed.
Lemma mt_mint_all now q : mt q (mint_all C W now q).
Proof. unfold mint_all. eapply mt_trans with (b := q_set_unminted [] q); [still|]. apply mt_fold. intros. apply mt_mint_one. Qed.
Lemma mt_collect_all q : mt q (collect_all q).
Proof.
  unfold collect_all. eapply mt_trans with (b := q_set_pumped [] q); [still|]. apply mt_fold. intros q1 x. unfold collect_one. destruct (aget x (q_conns q1)) as [b|]; [|apply mt_refl].
  pose proof (mt_collect x b (q_set_conns (adel x (q_conns q1)) q1)) as F. destruct (collect x b _) as [b2 q2]. cbn [snd] in F. eapply mt_trans with (b := q_set_conns (adel x (q_conns q1)) q1); [still|]. eapply mt_trans; [exact F|still].
Qed.
Lemma mt_sieve q : mt q (sieve C q).
Proof.
  unfold sieve. cbv zeta. eapply mt_trans; [|apply mt_fold; intros; apply mt_call0]. eapply mt_trans; [apply (mt_fold (fun q (_ : event) => call_ C None EPollEvent q)); intros; apply mt_call0|still].
Qed.
Lemma mt_dial_one now q t : mt q (dial_one C Q now q t).
Proof.
  unfold dial_one. destruct t as [[id peer] deadline]. cbv zeta. destruct (deadline <=? now); [eapply mt_trans; [|apply mt_call0]; still|]. eapply mt_new; reflexivity.
Qed.
Lemma mt_dial_all now q : mt q (dial_all C Q now q).
Proof.
  unfold dial_all. destruct (negb (q_runs q)); [apply mt_refl|]. cbv zeta. eapply mt_trans; [apply mt_sieve|]. eapply mt_trans with (b := q_set_dials [] (sieve C q)); [still|]. apply mt_fold. intros. apply mt_dial_one.
Qed.
Lemma mt_flush now q : mt q (flush C W B rnd now q).
Proof. unfold flush. eapply mt_trans; [apply mt_pump_all|]. eapply mt_trans; [apply mt_mint_all|]. eapply mt_trans; [apply mt_pump_all|apply mt_collect_all]. Qed.
Lemma mt_tick now q : mt q (tick C Q W B rnd now q).
Proof.
  unfold tick. cbv zeta. eapply mt_trans; [apply mt_pump_all|]. eapply mt_trans; [apply (mt_call0 (ETimeout now))|]. eapply mt_trans; [apply mt_mint_all|]. eapply mt_trans; [apply mt_dial_all|].
  eapply mt_trans; [apply mt_mint_all|]. eapply mt_trans; [apply mt_pump_all|]. eapply mt_trans; [apply mt_collect_all|still].
Qed.
Lemma mt_on_bridge f x q : mt q (on_bridge f x q).
Proof. unfold on_bridge. destruct (aget x (q_conns q)); [still|apply mt_refl]. Qed.
Lemma mt_start o k now q : mt q (fst (start C Q W B rnd o k now q)).
Proof.
  unfold start. pose proof (mt_call0 o (q_set_last (Some now) q)) as F. unfold call_ in F. destruct (call C None o (q_set_last (Some now) q)) as [q1 outs]. cbn [fst] in F.
  assert (F1 : mt q q1) by (eapply mt_trans with (b := q_set_last (Some now) q); [still|exact F]). clear F.
  destruct outs as [|[] [|]]; cbn [fst]; try exact F1. eapply mt_trans; [exact F1|]. eapply mt_trans with (b := q_set_kinds (aset n k (q_kinds q1)) q1); [still|]. eapply mt_trans; [apply mt_dial_all|apply mt_flush].
Qed.
Lemma mt_poll n : forall q, mt q (fst (poll_event_loop C n q)).
Proof.
  induction n as [|n IH]; intros q; [apply mt_refl|]. cbn [poll_event_loop]. pose proof (mt_call0 EPollEvent q) as F. unfold call_ in F. rewrite call_eq in *. cbn [fst] in F. set (q1 := q_set_log _ _) in *. clearbody q1.
  cbn [ep_step snd]. destruct (k_ev (e_core (q_ep q))) as [|ev r]; [exact F|]. destruct ev; try exact F. eapply mt_trans; [exact F|]. eapply mt_trans; [|apply IH]. still.
Qed.
Lemma mt_encrypt kr q : mt q (set_encryption kr q).
Proof.
  unfold set_encryption. destruct (kr_eqb _ _); [still|]. cbv zeta. set (hit := filter _ (q_conns q)). set (q1 := q_set_conns _ q). assert (F1 : mt q q1) by still. clearbody q1. eapply mt_trans; [exact F1|].
  pose proof (mt_fold (fun q x => push_td (TAbort x) (purge_connect x (purge x (mark_dirty x q)))) (map fst hit) ltac:(intros; still) q1) as F2. eapply mt_trans; [exact F2|]. destruct hit; still.
Qed.
Theorem step_meta q o : NoDup (akeys (q_ex q)) -> mt q (fst (q_step C Q W B rnd q o)).
Proof.
  intros ND. destruct o; cbn [q_step fst].
  - unfold on_data. cbv zeta. eapply mt_trans with (b := q_set_last (Some now) q); [still|]. eapply mt_trans; [|apply mt_tick]. eapply mt_trans; [apply mt_on_bridge|still].
  - unfold on_failure. eapply mt_trans with (b := q_set_last (Some now) q); [still|]. eapply mt_trans; [|apply mt_tick]. eapply mt_trans; [apply mt_on_bridge|still].
  - unfold on_failure. eapply mt_trans with (b := q_set_last (Some now) q); [still|]. eapply mt_trans; [|apply mt_tick]. eapply mt_trans; [apply mt_on_bridge|still].
  - unfold accept. cbv zeta. destruct (negb _); [still|]. destruct (match qc_max_in Q with Some _ => _ | None => _ end); [still|]. eapply mt_new; reflexivity.
  - pose proof (mt_start (EPushPull peer join now) XPushPull now q) as F. destruct (start _ _ _ _ _ _ _ _ _) as [q1 [r|]]; exact F.
  - pose proof (mt_start (EReliable id addr seq deadline) XReliablePing now q) as F. destruct (start _ _ _ _ _ _ _ _ _) as [q1 [r|]]; exact F.
  - pose proof (mt_start (EUserMsg peer data now) XUserMessage now q) as F. destruct (start _ _ _ _ _ _ _ _ _) as [q1 [r|]]; exact F.
  - unfold on_timeout. cbv zeta. eapply mt_trans; [|apply mt_tick]. eapply mt_trans with (b := q_set_last (Some now) q); [still|]. apply mt_fold. intros. still.
  - rewrite leave_split. eapply mt_trans; [|apply mt_call0]. unfold before_leave. cbv zeta. eapply mt_trans; [|apply mt_fold; intros q1 x; destruct (has_bytes x q1); [apply mt_cancel|apply mt_refl]]. still.
  - apply mt_encrypt.
  - unfold on_gossip. cbv zeta. destruct (negb _); [still|]. destruct (_ <=? _); still.
  - unfold poll_bytes. destruct (q_out q); [apply mt_refl|still].
  - unfold poll_action. destruct (q_con q) as [|[[x p] sid] r]; [|still]. destruct (take_first _ _) as [[t r]|]; [still|apply mt_refl].
  - unfold poll_event. pose proof (mt_poll (S (length (k_ev (e_core (q_ep q))))) q) as H. destruct (poll_event_loop _ _ _) as [q1 [r|]]; exact H.
  - unfold poll_ingress. destruct (q_ing q); [apply mt_refl|still].
  - unfold requeue. cbv zeta. destruct ev; try (eapply mt_trans with (b := q_set_last (Some now) q); [still|apply mt_call0]). destruct (negb _); still.
  - destruct (plain o); [|apply mt_refl]. set (q0 := match last with Some n => _ | None => _ end). assert (F0 : mt q q0) by (subst q0; destruct last; [still|apply mt_refl]).
    pose proof (mt_call0 o q0) as F. unfold call_ in F. destruct (call C None o q0) as [q1 outs]. cbn [fst] in *. eapply mt_trans; eauto.
  - constructor; cbn; [lia| |exists []; split; [symmetry; apply app_nil_r|constructor]]. intros x m G. left. exists m. split; [|apply same_refl]. rewrite <- G. symmetry. apply perm_aget; auto using shuffle_perm.
Qed.
End Meta.
