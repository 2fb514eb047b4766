(** What the calls of the coordinator (CoordModel.v) leave alone, and the book
    kept on the reports of exchanges: each one made is queued once. *)
From Verif Require Import CodecModel.
From Verif Require Import Base BaseFacts MapFacts CoreFacts CoreInv CoreSteps CoreTrans EndpointSteps EndpointInv EndpointHist EndpointRuns EndpointFacts EndpointUpkeep EndpointUser EndpointDetect EndpointOutcome CoordModel BridgeFacts CoordFacts CoordRuns CoordSteps.
Local Open Scope N_scope.

Section Frame.
Context (C : cfg) (Q : qcfg) (W : wcodec) (B : backends) (rnd : N -> N -> option bytes).
(** the reports looked for *)
Variable X : event -> bool.
Hypothesis XE : forall ev, X ev = true -> exists x p ok k, ev = EvExchange x p ok k.
Lemma XQ ev : quiet ev = false -> X ev = false.
Proof. intros H. destruct (X ev) eqn:E; [|reflexivity]. destruct (XE ev E) as (x & p & ok & k & ->). discriminate. Qed.
Lemma XD a b c : X (EvDial a b c) = false.
Proof. destruct (X (EvDial a b c)) eqn:E; [|reflexivity]. destruct (XE _ E) as (x & p & ok & k & F). discriminate. Qed.
Lemma Xno ev : (forall x p ok k, ev <> EvExchange x p ok k) -> X ev = false.
Proof. intros H. destruct (X ev) eqn:E; [|reflexivity]. destruct (XE ev E) as (x & p & ok & k & ->). now destruct (H x p ok k). Qed.

Definition asks (o : eop) : list event := match o with ERequeue ev => [ev] | _ => [] end.
Lemma rep_merge peer st us j sid now e : kinv C (e_core e) -> kind X (merge_in C peer st us j sid now e) = kind X e.
Proof.
  intros K. unfold merge_in. cbv zeta. pose proof (act_kind C X XQ XD (KMerge st now) e K Logic.I) as E.
  destruct us; [exact E|]. rewrite act_kind; [exact E|exact XQ|exact XD| |].
  - change (kinv C (e_core (act C (KMerge st now) e))). unfold act. cbn [e_core e_set_core]. now apply kinv_core_step.
  - cbn. apply Xno. intros. discriminate.
Qed.
Lemma rep_step e o : einv C e -> filter X (seen (snd (ep_step C e o))) ++ kind X (fst (ep_step C e o)) = kind X e ++ filter X (asks o).
Proof.
  intros I. pose proof (ei_core _ _ I) as K. pose proof XQ as XQ0. pose proof XD as XD0. assert (XL : X EvLeftCluster = false) by (apply Xno; intros; discriminate).
  destruct (match o with EPollEvent => true | _ => false end) eqn:PO.
  { destruct o; try discriminate. rewrite <- (poll_kind C X e). symmetry. apply app_nil_r. }
  rewrite (seen_none C e o) by (intros ->; discriminate). cbn [filter app].
  destruct o; try discriminate PO;
    try (cbn [asks filter]; rewrite app_nil_r; apply quiet_op; auto; fail).
  - cbn [asks filter ep_step fst]. rewrite app_nil_r. destruct m; try (match goal with |- kind X (handle_packet C from ?m now e) = _ => apply (quiet_op C X XQ0 XD0 e (EPacket from m now)); auto end; fail).
    + unfold handle_packet. destruct (negb _); [reflexivity|]. apply EndpointOutcome.ack_kind; auto; intros; apply Xno; intros; discriminate.
    + unfold handle_packet. destruct (negb _); [reflexivity|]. apply act_kind; auto. cbn. apply Xno. intros. discriminate.
  - cbn [asks filter ep_step fst]. rewrite app_nil_r. eapply (ticks_kind C X XQ0 XD0 (fun _ => True)); [intros; apply Xno; intros; discriminate|exact K|apply ticks_timeout; auto].
  - cbn [asks filter]. rewrite app_nil_r. destruct ev; cbn [ep_step fst handle_stream_event].
    + destruct (negb (runs e)); [reflexivity|]. destruct (e_merge e _); cbn [fst]; [|reflexivity]. apply rep_merge, K.
    + destruct (negb (runs e)); [reflexivity|]. destruct (e_merge e _); cbn [fst]; [|reflexivity]. apply rep_merge, K.
    + destruct (runs e); [|reflexivity]. apply EndpointOutcome.ok_kind; auto; intros; apply Xno; intros; discriminate.
    + destruct (runs e); [|reflexivity]. apply same_kind, retire_core.
    + destruct (runs e); [|reflexivity]. apply act_kind; auto. cbn. apply Xno. intros. discriminate.
    + reflexivity.
  - rewrite (requeue_kind C X XD0 e ev). reflexivity.
Qed.

(** * The book *)
Definition made (l : list (option N * eop)) : list event := flat_map (fun p => match fst p with Some _ => asks (snd p) | None => [] end) l.
(** stream events are handed over for an exchange, and reports name theirs *)
Definition tagged (p : option N * eop) : Prop := match p with
  | (None, EStreamEv _ _) => False
  | (Some y, ERequeue (EvExchange x _ _ _)) => x = y
  | _ => True
  end.
Definition tags (q q' : coord) : Prop := Forall tagged (q_log q) -> Forall tagged (q_log q').
Record fr (q q' : coord) : Prop := {
  fr_tag : tags q q';
  fr_adv : adv C q q';
  fr_ing : q_ing q' = q_ing q;
  fr_nx : NoDup (akeys (q_ex q)) -> NoDup (akeys (q_ex q'));
  fr_in : forall x m', aget x (q_ex q') = Some m' -> x_outbound m' = false -> exists m, aget x (q_ex q) = Some m /\ x_outbound m = false;
  fr_runs : einv C (q_ep q) -> q_runs q' = q_runs q;
  fr_con : einv C (q_ep q) -> q_runs q = false -> q_con q = [] -> q_con q' = [];
  fr_bal : einv C (q_ep q) -> exists l, q_log q' = q_log q ++ l /\ kind X (q_ep q') = kind X (q_ep q) ++ filter X (made l) }.
Lemma fr_e q q' : fr q q' -> einv C (q_ep q) -> einv C (q_ep q').
Proof. intros F. eapply adv_einv, F. Qed.
Lemma made_app a b : made (a ++ b) = made a ++ made b.
Proof. apply flat_map_app. Qed.
Lemma fr_refl q : fr q q.
Proof. constructor; eauto; [exact (fun H => H)|apply adv_refl|]. intros _. exists []. cbn. now rewrite !app_nil_r. Qed.
Lemma fr_trans a b c : fr a b -> fr b c -> fr a c.
Proof.
  intros F1 F2. pose proof (fr_e _ _ F1) as EI. destruct F1 as [A0 A1 A2 A3 A4 A5 A6 A7], F2 as [B0 B1 B2 B3 B4 B5 B6 B7]. constructor; auto; try congruence.
  - exact (fun H => B0 (A0 H)).
  - eapply adv_trans; eauto.
  - intros x m' G O. destruct (B4 x m' G O) as (m & G1 & O1). eauto.
  - intros I. rewrite (B5 (EI I)). auto.
  - intros I R K. apply B6; auto. rewrite A5; auto.
  - intros I. destruct (A7 I) as (l & L & E). destruct (B7 (EI I)) as (l' & L' & E'). exists (l ++ l'). rewrite L', L, app_assoc. split; [reflexivity|]. now rewrite E', E, made_app, filter_app, app_assoc.
Qed.
Lemma fr_fold {A} (f : coord -> A -> coord) l : (forall q a, fr q (f q a)) -> forall q, fr q (fold_left f l q).
Proof. intros H. induction l as [|a l IH]; intros q; [apply fr_refl|]. cbn [fold_left]. eapply fr_trans; [apply H|apply IH]. Qed.
(** a step that makes no call *)
Lemma fr_same q q' : q_ep q' = q_ep q -> q_log q' = q_log q -> q_ing q' = q_ing q -> (q_con q = [] -> q_con q' = []) -> (NoDup (akeys (q_ex q)) -> NoDup (akeys (q_ex q'))) ->
  (forall x m', aget x (q_ex q') = Some m' -> x_outbound m' = false -> exists m, aget x (q_ex q) = Some m /\ x_outbound m = false) -> fr q q'.
Proof. intros E1 E2 E3 E4 E5 E6. constructor; auto; rewrite ?E1; auto; [unfold tags; now rewrite E2|now apply adv_same|intros _; unfold q_runs; now rewrite E1|]. intros _. exists []. rewrite E2. cbn. now rewrite !app_nil_r. Qed.
Lemma fr_still q q' : q_ep q' = q_ep q -> q_log q' = q_log q -> q_ing q' = q_ing q -> (q_con q = [] -> q_con q' = []) -> q_ex q' = q_ex q -> fr q q'.
Proof. intros E1 E2 E3 E4 E5. apply fr_same; auto; rewrite E5; eauto. Qed.
Lemma fr_del x q : fr q (q_set_ex (adel x (q_ex q)) q).
Proof.
  apply fr_same; auto; [apply nodup_adel|]. intros y m' G O. cbn in G. destruct (N.eq_dec y x) as [->|NE]; [now rewrite aget_adel_eq in G|]. rewrite aget_adel_ne in G by exact NE. eauto.
Qed.
Lemma fr_put x m m0 q : aget x (q_ex q) = Some m0 -> x_outbound m = x_outbound m0 -> fr q (q_set_ex (aset x m (q_ex q)) q).
Proof.
  intros G0 O0. apply fr_same; auto; [apply nodup_aset|]. intros y m' G O. cbn in G. destruct (N.eq_dec y x) as [->|NE].
  - rewrite aget_aset_eq in G. injection G as <-. exists m0. split; congruence.
  - rewrite aget_aset_ne in G by exact NE. eauto.
Qed.
Lemma fr_new x m q : x_outbound m = true -> fr q (q_set_ex (aset x m (q_ex q)) q).
Proof.
  intros O0. apply fr_same; auto; [apply nodup_aset|]. intros y m' G O. cbn in G. destruct (N.eq_dec y x) as [->|NE].
  - rewrite aget_aset_eq in G. congruence.
  - rewrite aget_aset_ne in G by exact NE. eauto.
Qed.
Definition ordinary_op (o : eop) : Prop := match o with EPollEvent | ELeave _ _ => False | _ => True end.
Lemma runs_keep e o : einv C e -> ordinary_op o -> runs (fst (ep_step C e o)) = runs e.
Proof.
  intros I N. destruct (runs e) eqn:R.
  - apply runs_step; auto. intros now fw ->. exact N.
  - pose proof (stays_down C [o] e I R) as S. rewrite ep_run_fst in S. exact S.
Qed.
Lemma fr_call ox o q : tagged (ox, o) -> ordinary_op o -> (ox = None -> filter X (asks o) = []) -> fr q (call_ C ox o q).
Proof.
  intros TG NP NX. pose proof (adv_call C ox o q) as A. unfold call_ in *. rewrite call_eq in *. cbn [fst] in *. constructor; cbn; eauto.
  - intros H. cbn. apply Forall_app. auto.
  - intros I. unfold q_runs. cbn. now apply runs_keep.
  - intros I. exists [(ox, o)]. split; [reflexivity|]. pose proof (rep_step (q_ep q) o I) as R. rewrite (seen_none C (q_ep q) o) in R by (intros ->; exact NP). cbn [filter app] in R. rewrite R. f_equal.
    unfold made. cbn. destruct ox; [now rewrite app_nil_r|]. now rewrite NX.
Qed.
Lemma fr_calls x l q : Forall (fun o => exists ev now, o = EStreamEv ev now) l -> fr q (q_set_log (q_log q ++ map (fun o => (Some x, o)) l) (q_set_ep (fst (ep_run C (q_ep q) l)) q)).
Proof.
  intros F. constructor; cbn; eauto.
  - intros H. cbn. apply Forall_app. split; [exact H|]. clear - F. induction F as [|o l (ev & now & ->) F IH]; constructor; [exact Logic.I|assumption].
  - exists (map (fun o => (Some x, o)) l). cbn. split; [reflexivity|]. rewrite map_map. cbn. now rewrite map_id.
  - intros I. unfold q_runs. cbn. rewrite ep_run_fst. revert I. generalize (q_ep q) as e. induction F as [|o l (ev & now & ->) F IH]; intros e I; [reflexivity|]. cbn [fold_left]. rewrite IH by now apply einv_op. now apply runs_keep.
  - intros I. exists (map (fun o => (Some x, o)) l). split; [reflexivity|].
    assert (M : made (map (fun o => (Some x, o)) l) = []). { clear I. induction F as [|o l (ev & now & ->) _ IH]; [reflexivity|exact IH]. }
    rewrite M. cbn. rewrite app_nil_r, ep_run_fst. clear M. revert I. generalize (q_ep q) as e. induction F as [|o l (ev & now & ->) F IH]; intros e I; [reflexivity|]. cbn [fold_left]. rewrite IH by now apply einv_op.
    pose proof (rep_step e (EStreamEv ev now) I) as R. rewrite seen_none in R by discriminate. cbn [filter app asks] in R. now rewrite app_nil_r in R.
Qed.

(** ** The functions of the coordinator *)
Lemma events_calls n now : forall b e, let '(b', e', l) := br_events C W B rnd n now b e in
  e' = fst (ep_run C e l) /\ Forall (fun o => exists ev now, o = EStreamEv ev now) l.
Proof.
  induction n as [|n IH]; intros b e; [cbn; auto|]. cbn [br_events]. destruct (br_stream b) as [s|]; [|cbn; auto]. destruct (s_ep s) as [|ev r]; [cbn; auto|].
  cbn [ep_run]. destruct (ep_step C e (EStreamEv ev now)) as [e1 outs] eqn:ES.
  match goal with |- context [br_events C W B rnd n now ?x e1] => specialize (IH x e1); destruct (br_events C W B rnd n now x e1) as [[b2 e2] l] end.
  destruct IH as (E & F). cbn [ep_run]. rewrite ES. destruct (ep_run C e1 l). cbn in *. split; [exact E|]. constructor; eauto.
Qed.
Lemma reap_calls now b e : let '(b', e', l) := br_drain_reap C W B rnd now b e in e' = fst (ep_run C e l) /\ Forall (fun o => exists ev now, o = EStreamEv ev now) l.
Proof.
  unfold br_drain_reap. destruct (br_stream b) as [s|]; [|cbn; auto]. pose proof (events_calls (br_waiting b) now b e) as H. destruct (br_events C W B rnd (br_waiting b) now b e) as [[b1 e1] l].
  destruct H as (E & F). cbn. split; [|apply Forall_app; split; [exact F|repeat constructor; eauto]].
  rewrite (ep_run_app_fst C), <- E. reflexivity.
Qed.
Lemma payload_calls now b e : let '(b', e', l) := br_drain_payload C W B rnd now b e in e' = fst (ep_run C e l) /\ Forall (fun o => exists ev now, o = EStreamEv ev now) l.
Proof.
  unfold br_drain_payload. destruct (br_phase b) as [|[]]; try (cbn; auto; fail). apply events_calls.
Qed.
Lemma fr_drained x r q : snd (fst r) = fst (ep_run C (q_ep q) (snd r)) -> Forall (fun o => exists ev now, o = EStreamEv ev now) (snd r) -> fr q (snd (drained x r q)).
Proof. destruct r as [[b e] l]. cbn [fst snd drained]. intros -> F. now apply fr_calls. Qed.
Lemma fr_purge x q : fr q (purge x q).
Proof. now apply fr_still. Qed.
Lemma fr_collect x b q : fr q (snd (collect x b q)).
Proof. unfold collect. destruct (aget x (q_ex q)); [|apply fr_refl]. cbn. destruct (r_out (br_rec b)); [apply fr_refl|now apply fr_still]. Qed.
Lemma fr_td t q : fr q (push_td t q).
Proof. now apply fr_still. Qed.
Lemma fr_reap x b q : fr q (reap C x b q).
Proof.
  unfold reap. cbv zeta. set (q1 := if br_failed b then purge x q else snd (collect x b q)). assert (F1 : fr q q1) by (subst q1; destruct (br_failed b); [apply fr_purge|apply fr_collect]). clearbody q1.
  eapply fr_trans; [exact F1|]. eapply fr_trans; [apply (fr_del x)|]. set (q2 := q_set_ex _ q1). clearbody q2. eapply fr_trans; [|apply fr_td].
  destruct (aget x (q_ex q1)) as [m|]; [|apply fr_refl].
  set (q3 := match x_kind m with Some k => _ | None => _ end). assert (F3 : fr q2 q3) by (subst q3; destruct (x_kind m); [apply fr_call; [reflexivity|exact Logic.I|discriminate]|apply fr_refl]). clearbody q3.
  eapply fr_trans; [exact F3|]. destruct (x_mint m) as [[]|]; try apply fr_refl. apply fr_call; [exact Logic.I|exact Logic.I|discriminate].
Qed.
Lemma fr_shutdown x b q : fr q (maybe_shutdown x b q).
Proof.
  unfold maybe_shutdown. destruct (negb _); [apply fr_refl|]. destruct (aget x (q_ex q)) as [m|] eqn:M; [|apply fr_refl]. destruct (x_fin m); [apply fr_refl|]. eapply fr_trans; [|apply fr_td]. eapply fr_put; [exact M|reflexivity].
Qed.
Lemma fr_pump_one now q x : fr q (pump_one C W B rnd now q x).
Proof.
  unfold pump_one. destruct (aget x (q_conns q)) as [b0|]; [|apply fr_refl]. set (q1 := q_set_conns _ q). assert (F1 : fr q q1) by now apply fr_still. clearbody q1.
  eapply fr_trans; [exact F1|]. set (b := br_pump_out _ _ _ _). clearbody b.
  assert (RE : forall b q2, fr q2 (let '(b, q) := drained x (br_drain_reap C W B rnd now b (q_ep q2)) q2 in reap C x b q)).
  { intros b1 q2. pose proof (reap_calls now b1 (q_ep q2)) as H. destruct (br_drain_reap C W B rnd now b1 (q_ep q2)) as [[b2 e2] l]. destruct H as (E & F).
    pose proof (fr_drained x (b2, e2, l) q2 E F) as D. destruct (drained x (b2, e2, l) q2) as [b3 q3]. eapply fr_trans; [exact D|apply fr_reap]. }
  destruct (br_terminal b); [apply RE|]. pose proof (payload_calls now b (q_ep q1)) as H. destruct (br_drain_payload C W B rnd now b (q_ep q1)) as [[b2 e2] l]. destruct H as (E & F).
  pose proof (fr_drained x (b2, e2, l) q1 E F) as D. destruct (drained x (b2, e2, l) q1) as [b3 q3]. eapply fr_trans; [exact D|]. destruct (br_terminal b3); [apply RE|].
  cbv zeta. eapply fr_trans; [apply (fr_shutdown x b3)|now apply fr_still].
Qed.
Lemma fr_pump_all now q : fr q (pump_all C W B rnd now q).
Proof. unfold pump_all. eapply fr_trans with (b := q_set_dirty [] q); [now apply fr_still|]. apply fr_fold. intros. apply fr_pump_one. Qed.
Lemma fr_cancel x q : fr q (cancel x q).
Proof.
  unfold cancel. eapply fr_trans; [|apply fr_td]. eapply fr_trans with (b := q_set_conns (adel x (q_conns q)) q); [now apply fr_still|]. eapply fr_trans; [apply (fr_del x)|]. now apply fr_still.
Qed.
Lemma fr_retire x q : fr q (retire_dial C x q).
Proof.
  unfold retire_dial. set (q1 := q_set_conns _ _). assert (F1 : fr q q1) by (apply fr_still; auto; cbn; now intros ->). clearbody q1. eapply fr_trans; [exact F1|]. eapply fr_trans; [apply (fr_del x)|]. eapply fr_trans; [|apply fr_td].
  destruct (aget x (q_ex q1)) as [m|]; [|apply fr_refl]. destruct (x_kind m); [apply fr_call; [reflexivity|exact Logic.I|discriminate]|apply fr_refl].
Qed.
Lemma fr_promote x s q : fr q (promote_in x s q).
Proof. unfold promote_in. destruct (aget x (q_conns q)); [now apply fr_still|apply fr_refl]. Qed.
Lemma fr_mint_one now q x : fr q (mint_one C W now q x).
Proof.
  unfold mint_one. destruct (aget x (q_conns q)) as [b|]; [|apply fr_refl]. destruct (br_terminal b); [apply fr_refl|]. destruct (br_handshaking b); [now apply fr_still|].
  destruct (aget x (q_ex q)) as [m|] eqn:M; [|now apply fr_still]. destruct (x_mint m) as [[sid|from]|]; [| |now apply fr_still].
  - cbv zeta. assert (F1 : fr q (mark_dirty x (q_set_ex (aset x (x_set_mint None m) (q_ex q)) q))) by (eapply fr_trans; [eapply fr_put with (m := x_set_mint None m); [exact M|reflexivity]|now apply fr_still]).
    set (q1 := mark_dirty _ _) in *. clearbody q1. pose proof (fr_call (Some x) (EDialOk sid now) q1 Logic.I Logic.I ltac:(discriminate)) as F2. unfold call_ in F2.
    destruct (call C (Some x) (EDialOk sid now) q1) as [q2 outs]. cbn [fst] in F2. eapply fr_trans; [exact F1|]. eapply fr_trans; [exact F2|].
    destruct outs as [|[] [|]]; try apply fr_retire. all: destruct req as [[k msg]|]; try apply fr_retire; apply fr_promote.
  - cbv zeta. assert (F1 : fr q (mark_dirty x (q_set_ex (aset x (x_set_mint None m) (q_ex q)) q))) by (eapply fr_trans; [eapply fr_put with (m := x_set_mint None m); [exact M|reflexivity]|now apply fr_still]).
    set (q1 := mark_dirty _ _) in *. clearbody q1. pose proof (fr_call (Some x) (EAccept from now) q1 Logic.I Logic.I ltac:(discriminate)) as F2. unfold call_ in F2.
    destruct (call C (Some x) (EAccept from now) q1) as [q2 outs]. cbn [fst] in F2. eapply fr_trans; [exact F1|]. eapply fr_trans; [exact F2|].
    destruct outs as [|[] [|]]; try apply fr_cancel. all: destruct req; try apply fr_cancel; apply fr_promote.
Qed.
Lemma fr_mint_all now q : fr q (mint_all C W now q).
Proof. unfold mint_all. eapply fr_trans with (b := q_set_unminted [] q); [now apply fr_still|]. apply fr_fold. intros. apply fr_mint_one. Qed.
Lemma fr_collect_all q : fr q (collect_all q).
Proof.
  unfold collect_all. eapply fr_trans with (b := q_set_pumped [] q); [now apply fr_still|]. apply fr_fold. intros q1 x. unfold collect_one. destruct (aget x (q_conns q1)) as [b|]; [|apply fr_refl].
  pose proof (fr_collect x b (q_set_conns (adel x (q_conns q1)) q1)) as F. destruct (collect x b _) as [b2 q2]. cbn [snd] in F. eapply fr_trans with (b := q_set_conns (adel x (q_conns q1)) q1); [now apply fr_still|].
  eapply fr_trans; [exact F|now apply fr_still].
Qed.
Lemma poll_tl e : k_ev (e_core (fst (ep_step C e EPollEvent))) = tl (k_ev (e_core e)).
Proof. cbn [ep_step]. unfold act, core_step. destruct (k_ev (e_core e)) as [|ev r] eqn:E; cbn; rewrite ?E; reflexivity. Qed.
Lemma add_ev e ev : is_dial ev = false -> k_ev (e_core (fst (ep_step C e (ERequeue ev)))) = k_ev (e_core e) ++ [ev].
Proof.
  intros D. cbn [ep_step fst]. unfold act. cbn [e_core e_set_core].
  change (fst (core_step C (e_core e) (KRequeue ev))) with (if negb (is_running (k_life (e_core e))) && is_dial ev then e_core e else k_set_ev (k_ev (e_core e) ++ [ev]) (e_core e)).
  rewrite D, Bool.andb_false_r. reflexivity.
Qed.
Definition keeps (q q' : coord) : Prop := tags q q' /\ (adv C q q' /\ q_con q' = q_con q /\ q_runs q' = q_runs q) /\ q_ing q' = q_ing q /\ q_ex q' = q_ex q /\ exists l, q_log q' = q_log q ++ l /\ made l = [].
Lemma keeps_trans a b c : keeps a b -> keeps b c -> keeps a c.
Proof. intros (A0 & (A1 & A1' & A1'') & A2 & A3 & l & A4 & A5) (B0 & (B1 & B1' & B1'') & B2 & B3 & l' & B4 & B5). split; [exact (fun H => B0 (A0 H))|]. split; [split; [eapply adv_trans; eauto|split; congruence]|]. split; [congruence|]. split; [congruence|]. exists (l ++ l'). rewrite B4, A4, app_assoc. split; [reflexivity|]. now rewrite made_app, A5, B5. Qed.
Lemma runs_poll e : runs (fst (ep_step C e EPollEvent)) = runs e.
Proof. cbn [ep_step fst]. now apply runs_nl. Qed.
Lemma keeps_call o q : match o with EPollEvent | ERequeue _ => True | _ => False end -> keeps q (call_ C None o q).
Proof.
  intros NO. pose proof (adv_call C None o q) as A. unfold call_ in *. rewrite call_eq in *. cbn [fst] in *. split; [intros H; cbn; apply Forall_app; split; [exact H|constructor; [destruct o; try contradiction; exact Logic.I|constructor]]|]. split; [split; [exact A|split; [reflexivity|unfold q_runs; cbn [q_ep q_set_log q_set_ep]]]|].
  - destruct o; try contradiction; [apply runs_poll|]. cbn [ep_step fst]. now apply runs_nl.
  - split; [reflexivity|]. split; [reflexivity|]. exists [(None, o)]. auto.
Qed.
Lemma fr_sieve q : fr q (sieve C q) /\ q_runs (sieve C q) = q_runs q.
Proof.
  unfold sieve. set (evs := k_ev (e_core (q_ep q))).
  assert (H1 : forall (l : list event) q1, let q2 := fold_left (fun q _ => call_ C None EPollEvent q) l q1 in keeps q1 q2 /\ k_ev (e_core (q_ep q2)) = skipn (length l) (k_ev (e_core (q_ep q1)))).
  { induction l as [|a l IH]; intros q1; [split; [|reflexivity]; split; [exact (fun H => H)|]; split; [split; [apply adv_refl|auto]|]; split; [reflexivity|split; [reflexivity|exists []; now rewrite app_nil_r]]|]. cbn [fold_left]. destruct (IH (call_ C None EPollEvent q1)) as (K & E). split; [eapply keeps_trans; [apply (keeps_call EPollEvent); exact Logic.I|exact K]|].
    rewrite E. unfold call_. rewrite call_eq. cbn [fst q_ep q_set_log q_set_ep]. rewrite poll_tl. destruct (k_ev (e_core (q_ep q1))); [now rewrite !skipn_nil|reflexivity]. }
  assert (H2 : forall (l : list event) q1, Forall (fun ev => is_dial ev = false) l -> let q2 := fold_left (fun q ev => call_ C None (ERequeue ev) q) l q1 in keeps q1 q2 /\ k_ev (e_core (q_ep q2)) = k_ev (e_core (q_ep q1)) ++ l).
  { induction l as [|a l IH]; intros q1 F; [split; [|symmetry; apply app_nil_r]; split; [exact (fun H => H)|]; split; [split; [apply adv_refl|auto]|]; split; [reflexivity|split; [reflexivity|exists []; now rewrite app_nil_r]]|]. inversion F; subst. cbn [fold_left]. destruct (IH (call_ C None (ERequeue a) q1) ltac:(assumption)) as (K & E). split; [eapply keeps_trans; [apply (keeps_call (ERequeue a)); exact Logic.I|exact K]|].
    rewrite E. unfold call_. rewrite call_eq. cbn [fst q_ep q_set_log q_set_ep]. rewrite add_ev by assumption. now rewrite <- app_assoc. }
  destruct (H1 evs q) as (K1 & E1). cbv zeta in K1, E1. set (q1 := fold_left _ evs q) in *. clearbody q1.
  assert (F : Forall (fun ev => is_dial ev = false) (filter (fun ev => negb (is_dial ev)) evs)) by (apply Forall_forall; intros ev J; apply filter_In in J as (_ & J); now destruct (is_dial ev)).
  cbv zeta. set (q2 := q_set_dials _ q1). assert (K2 : keeps q q2) by exact K1. assert (E2 : k_ev (e_core (q_ep q2)) = []) by (change (q_ep q2) with (q_ep q1); rewrite E1; unfold evs; apply skipn_all).
  clearbody q2. destruct (H2 _ q2 F) as (K3 & E3). cbv zeta in K3, E3. set (q3 := fold_left _ _ q2) in *. clearbody q3. rewrite E2 in E3. cbn [app] in E3.
  destruct (keeps_trans _ _ _ K2 K3) as (A0 & (A1 & A1' & A1'') & A2 & A3 & l & A4 & A5). split; [|exact A1'']. constructor; auto; rewrite ?A3; eauto; [congruence|]. intros _. exists l. split; [exact A4|]. rewrite A5. cbn. rewrite app_nil_r. unfold kind. rewrite E3. apply filter_dials. exact XD.
Qed.
Lemma fr_dial_one now q t : q_runs q = true -> fr q (dial_one C Q now q t) /\ q_runs (dial_one C Q now q t) = true.
Proof.
  intros RU. unfold dial_one. destruct t as [[id peer] deadline]. set (q1 := q_set_kinds _ q). assert (F1 : fr q q1) by now apply fr_still. set (kd := aget id (q_kinds q)). assert (RU1 : q_runs q1 = true) by exact RU. clearbody q1 kd. clear RU.
  assert (G : forall a b, fr q1 a /\ b = true -> fr q a /\ b = true) by (intros a b (A & Y); split; [eapply fr_trans; eauto|exact Y]). apply G. clear G F1 q. destruct (deadline <=? now).
  { split; [apply fr_call; [exact Logic.I|exact Logic.I|reflexivity]|]. unfold call_. rewrite call_eq. unfold q_runs in *. cbn [fst q_ep q_set_log q_set_ep ep_step]. unfold runs in *. rewrite resolve_core. exact RU1. }
  cbv zeta. split; [|exact RU1]. set (q2 := mark_unminted _ _). assert (F2 : fr q1 q2) by now apply fr_still. assert (RU2 : q_runs q2 = true) by exact RU1. clearbody q2. eapply fr_trans; [exact F2|].
  eapply fr_trans; [apply fr_new with (x := q_next q1) (m := mkX peer (Some (MOut id)) false kd true); reflexivity|]. set (q3 := q_set_ex _ q2). assert (RU3 : q_runs q3 = true) by exact RU2. clearbody q3.
  constructor; cbn; eauto; [exact (fun H => H)|now apply adv_same|unfold q_runs in *; cbn in *; congruence|]. intros _. exists []. cbn. now rewrite !app_nil_r.
Qed.
Lemma fr_dial_all now q : fr q (dial_all C Q now q).
Proof.
  unfold dial_all. destruct (q_runs q) eqn:RU; cbn [negb]; [|apply fr_refl]. cbv zeta. destruct (fr_sieve q) as (F1 & RU1). rewrite RU in RU1. eapply fr_trans; [exact F1|]. clear F1 RU. revert RU1. generalize (sieve C q) as q1. clear q. intros q1 RU1.
  eapply fr_trans with (b := q_set_dials [] q1); [now apply fr_still|].
  assert (R1 : q_runs (q_set_dials [] q1) = true) by exact RU1. revert R1. generalize (q_dials q1) as l. generalize (q_set_dials [] q1) as q2. clear - XE. intros q2 l. revert q2. induction l as [|t l IH]; intros q2 R; [apply fr_refl|]. cbn [fold_left].
  destruct (fr_dial_one now q2 t R) as (F & R'). eapply fr_trans; [exact F|]. now apply IH.
Qed.
Lemma fr_flush now q : fr q (flush C W B rnd now q).
Proof. unfold flush. eapply fr_trans; [apply fr_pump_all|]. eapply fr_trans; [apply fr_mint_all|]. eapply fr_trans; [apply fr_pump_all|apply fr_collect_all]. Qed.
Lemma fr_tick now q : fr q (tick C Q W B rnd now q).
Proof.
  unfold tick. eapply fr_trans; [apply fr_pump_all|]. eapply fr_trans; [apply (fr_call None (ETimeout now)); [exact Logic.I|exact Logic.I|reflexivity]|]. eapply fr_trans; [apply fr_mint_all|]. eapply fr_trans; [apply fr_dial_all|].
  eapply fr_trans; [apply fr_mint_all|]. eapply fr_trans; [apply fr_pump_all|]. eapply fr_trans; [apply fr_collect_all|now apply fr_still].
Qed.

(** ** The calls of a driver *)
Definition evs_in (ys : list qout) : list event := flat_map (fun y => match y with YEvent ev => [ev] | _ => [] end) ys.
Definition handed_back (o : qop) : list event := match o with QRequeue ev _ => [ev] | _ => [] end.
Definition books (q q' : coord) (evs back : list event) : Prop :=
  (tags q q' /\ adv C q q') /\ (einv C (q_ep q) -> exists l, q_log q' = q_log q ++ l /\ filter X evs ++ kind X (q_ep q') = kind X (q_ep q) ++ filter X back ++ filter X (made l)).
Lemma fr_books q q' : fr q q' -> books q q' [] [].
Proof. intros F. split; [split; apply F|]. intros I. destruct (fr_bal _ _ F I) as (l & L & E). exists l. auto. Qed.
Lemma books_ing v q q' evs back : books (q_set_ing v q) q' evs back -> books q q' evs back.
Proof. exact (fun H => H). Qed.
Lemma poll_book n : forall q, let '(q', r) := poll_event_loop C n q in
  books q q' (match r with Some ev => [ev] | None => [] end) [] /\ q_ex q' = q_ex q /\ q_ing q' = q_ing q.
Proof.
  induction n as [|n IH]; intros q; [split; [apply fr_books, fr_refl|auto]|]. cbn [poll_event_loop]. rewrite call_eq. set (q1 := q_set_log _ _).
  assert (K : keeps q q1) by (pose proof (keeps_call EPollEvent q Logic.I) as K; unfold call_ in K; rewrite call_eq in K; exact K).
  assert (E : einv C (q_ep q) -> filter X (seen (snd (ep_step C (q_ep q) EPollEvent))) ++ kind X (q_ep q1) = kind X (q_ep q)) by (intros _; unfold q1; cbn [q_ep q_set_log q_set_ep]; rewrite <- (poll_kind C X (q_ep q)); reflexivity).
  clearbody q1. destruct K as (K0 & (K1 & _ & _) & K2 & K3 & l & K4 & K5). cbn [ep_step snd] in *.
  assert (DONE : forall r, (einv C (q_ep q) -> filter X (match r with Some ev => [ev] | None => [] end) ++ kind X (q_ep q1) = kind X (q_ep q)) ->
    books q q1 (match r with Some ev => [ev] | None => [] end) [] /\ q_ex q1 = q_ex q /\ q_ing q1 = q_ing q).
  { intros r H. split; [|auto]. split; [split; [exact K0|exact K1]|]. intros I. exists l. split; [exact K4|]. rewrite K5. cbn [filter app]. rewrite app_nil_r. auto. }
  destruct (k_ev (e_core (q_ep q))) as [|ev r]; cbn [seen flat_map app] in E; [now apply (DONE None)|]. destruct ev; try (apply (DONE (Some _)); exact E).
  match goal with |- context [poll_event_loop C n ?x] => specialize (IH x); destruct (poll_event_loop C n x) as [q2 r2] end.
  destruct IH as (((B0 & B1) & B2) & X2 & G2). cbn [q_ex q_ing q_set_dials] in *. split; [|split; congruence].
  split; [split; [exact (fun H => B0 (K0 H))|eapply adv_trans; [|exact B1]; eapply adv_trans; [exact K1|now apply adv_same]]|]. intros I. destruct (B2 (adv_einv _ _ _ K1 I)) as (l2 & L2 & E2).
  exists (l ++ l2). cbn [q_log q_ep q_set_dials] in *. rewrite L2, K4, app_assoc. split; [reflexivity|]. rewrite made_app, K5. cbn [app]. rewrite E2. specialize (E I). cbn [filter] in E. rewrite XD in E. cbn [app] in E. now rewrite E.
Qed.
Lemma plain_not o : plain o = true -> tagged (None, o) /\ ordinary_op o /\ asks o = [].
Proof. destruct o; try discriminate; intros _; repeat split; exact Logic.I. Qed.
Lemma fr_cancels l : forall q, fr q (fold_left (fun q x => if has_bytes x q then cancel x q else q) l q).
Proof. apply fr_fold. intros q x. destruct (has_bytes x q); [apply fr_cancel|apply fr_refl]. Qed.
Lemma fr_on_bridge f x q : fr q (on_bridge f x q).
Proof. unfold on_bridge. destruct (aget x (q_conns q)); [now apply fr_still|apply fr_refl]. Qed.
Lemma fr_start o k now q : tagged (None, o) -> ordinary_op o -> asks o = [] -> fr q (fst (start C Q W B rnd o k now q)).
Proof.
  intros T N A. unfold start. pose proof (fr_call None o (q_set_last (Some now) q) T N) as F. rewrite A in F. specialize (F (fun _ => eq_refl)). unfold call_ in F. destruct (call C None o (q_set_last (Some now) q)) as [q1 outs]. cbn [fst] in F.
  assert (F1 : fr q q1) by (eapply fr_trans with (b := q_set_last (Some now) q); [now apply fr_still|exact F]). clear F.
  assert (D : forall id, fr q (flush C W B rnd now (dial_all C Q now (q_set_kinds (aset id k (q_kinds q1)) q1)))).
  { intros id. eapply fr_trans; [exact F1|]. eapply fr_trans with (b := q_set_kinds (aset id k (q_kinds q1)) q1); [now apply fr_still|]. eapply fr_trans; [apply fr_dial_all|apply fr_flush]. }
  destruct outs as [|[] [|]]; cbn [fst]; try exact F1. apply D.
Qed.
Definition before_leave (now : N) (q : coord) : coord :=
  let q := q_set_ing [] (q_set_con [] (q_set_kinds [] (q_set_dials [] (q_set_last (Some now) q)))) in
  fold_left (fun q x => if has_bytes x q then cancel x q else q) (map fst (filter (fun p => x_outbound (snd p)) (q_ex q))) q.
Lemma leave_split now fw q : q_leave C now fw q = call_ C None (ELeave now fw) (before_leave now q).
Proof. reflexivity. Qed.
Lemma fr_before_leave now q : fr (q_set_ing [] q) (before_leave now q).
Proof.
  unfold before_leave. cbv zeta. set (q1 := q_set_ing [] (q_set_con [] _)). assert (F1 : fr (q_set_ing [] q) q1) by now apply fr_still. eapply fr_trans; [exact F1|]. apply fr_cancels.
Qed.
Lemma leave_book now fw q : books q (q_leave C now fw q) [] [].
Proof.
  rewrite leave_split. pose proof (fr_before_leave now q) as F. pose proof (adv_call C None (ELeave now fw) (before_leave now q)) as A. apply fr_books in F as ((T0 & A0) & B0). split; [split; [intros H; unfold call_; rewrite call_eq; cbn; apply Forall_app; split; [exact (T0 H)|repeat constructor]|eapply adv_trans; [exact A0|exact A]]|].
  intros I. destruct (B0 I) as (l & L & E). exists (l ++ [(None, ELeave now fw)]). unfold call_. rewrite call_eq. cbn [fst q_log q_ep q_set_log q_set_ep]. split; [rewrite L; cbn [q_log q_set_ing]; now rewrite app_assoc|].
  pose proof (rep_step (q_ep (before_leave now q)) (ELeave now fw) (adv_einv _ _ _ A0 I)) as R. rewrite seen_none in R by discriminate. cbn [filter app asks] in R. rewrite app_nil_r in R. cbn [filter app]. rewrite R. rewrite made_app. cbn [made flat_map fst app]. rewrite app_nil_r. exact E.
Qed.
Lemma fr_encrypt kr q : fr q (set_encryption kr q) \/ fr (q_set_ing [] q) (set_encryption kr q).
Proof.
  unfold set_encryption. destruct (kr_eqb _ _); [left; now apply fr_still|right]. cbv zeta. set (hit := filter _ (q_conns q)). set (q1 := q_set_conns _ q).
  assert (F1 : fr q q1) by now apply fr_still. assert (F2 : fr q1 (fold_left (fun q x => push_td (TAbort x) (purge_connect x (purge x (mark_dirty x q)))) (map fst hit) q1)) by (apply fr_fold; intros; apply fr_still; auto; cbn; now intros ->).
  set (q2 := fold_left _ _ q1) in *. clearbody q2. assert (F3 : fr q2 (match hit with [] => q2 | _ => q_set_pol true q2 end)) by (destruct hit; [apply fr_refl|now apply fr_still]). set (q3 := match hit with [] => q2 | _ => _ end) in *. clearbody q3.
  pose proof (fr_trans _ _ _ F1 (fr_trans _ _ _ F2 F3)) as [G0 G1 G2 G3 G4 G5 G6 G7]. constructor; cbn; auto.
Qed.
Lemma fr_reorder f q : NoDup (akeys (q_ex q)) -> fr q (q_set_conns (shuffle f (q_conns q)) (q_set_ex (shuffle f (q_ex q)) q)).
Proof.
  intros ND. apply fr_same; auto; cbn.
  - intros _. eapply perm_nodup_keys; [apply shuffle_perm|exact ND].
  - intros x m' G O. exists m'. split; [|exact O]. rewrite <- G. symmetry. apply perm_aget; auto using shuffle_perm.
Qed.
Theorem step_book q o : NoDup (akeys (q_ex q)) -> books q (fst (q_step C Q W B rnd q o)) (evs_in (snd (q_step C Q W B rnd q o))) (handed_back o).
Proof.
  intros ND. destruct o; cbn [q_step handed_back].
  - apply fr_books. unfold on_data. eapply fr_trans with (b := q_set_last (Some now) q); [now apply fr_still|]. eapply fr_trans; [|apply fr_tick]. cbv zeta. eapply fr_trans; [apply fr_on_bridge|now apply fr_still].
  - apply fr_books. unfold on_failure. eapply fr_trans with (b := q_set_last (Some now) q); [now apply fr_still|]. eapply fr_trans; [|apply fr_tick]. eapply fr_trans; [apply fr_on_bridge|now apply fr_still].
  - apply fr_books. unfold on_failure. eapply fr_trans with (b := q_set_last (Some now) q); [now apply fr_still|]. eapply fr_trans; [|apply fr_tick]. eapply fr_trans; [apply fr_on_bridge|now apply fr_still].
  - unfold accept. cbv zeta. destruct (negb _); [now apply fr_books, fr_still|]. destruct (match qc_max_in Q with Some _ => _ | None => _ end); [now apply fr_books, fr_still|]. cbn [fst snd opt evs_in flat_map app].
    split; [split; [exact (fun H => H)|now apply adv_same]|]. intros I. exists []. cbn. rewrite !app_nil_r. auto.
  - pose proof (fr_start (EPushPull peer join now) XPushPull now q Logic.I Logic.I eq_refl) as F. destruct (start _ _ _ _ _ _ _ _ _) as [q1 [r|]]; apply fr_books, F.
  - pose proof (fr_start (EReliable id addr seq deadline) XReliablePing now q Logic.I Logic.I eq_refl) as F. destruct (start _ _ _ _ _ _ _ _ _) as [q1 [r|]]; apply fr_books, F.
  - pose proof (fr_start (EUserMsg peer data now) XUserMessage now q Logic.I Logic.I eq_refl) as F. destruct (start _ _ _ _ _ _ _ _ _) as [q1 [r|]]; apply fr_books, F.
  - apply fr_books. unfold on_timeout. cbv zeta. eapply fr_trans; [|apply fr_tick]. eapply fr_trans with (b := q_set_last (Some now) q); [now apply fr_still|]. apply fr_fold. intros. now apply fr_still.
  - apply leave_book.
  - destruct (fr_encrypt kr q) as [F|F]; [now apply fr_books|apply (books_ing []); now apply fr_books].
  - cbn [fst snd evs_in flat_map]. unfold on_gossip. cbv zeta. destruct (negb _); [now apply fr_books, fr_still|]. destruct (_ <=? _); [now apply fr_books, fr_still|]. split; [split; [exact (fun H => H)|now apply adv_same]|]. intros I. exists []. cbn. rewrite !app_nil_r. auto.
  - unfold poll_bytes. destruct (q_out q); [now apply fr_books, fr_refl|]. now apply fr_books, fr_still.
  - unfold poll_action. destruct (q_con q) as [|[[x p] sid] r] eqn:QC; [|apply fr_books, fr_still; auto; intros Y; rewrite QC in Y; discriminate]. destruct (take_first _ _) as [[t r]|]; [now apply fr_books, fr_still|now apply fr_books, fr_refl].
  - unfold poll_event. pose proof (poll_book (S (length (k_ev (e_core (q_ep q))))) q) as H. destruct (poll_event_loop _ _ _) as [q1 [r|]]; cbn [fst snd opt evs_in flat_map app]; apply H.
  - unfold poll_ingress. destruct (q_ing q); [now apply fr_books, fr_refl|]. split; [split; [exact (fun H => H)|now apply adv_same]|]. intros I. exists []. cbn. rewrite !app_nil_r. auto.
  - cbn [fst snd evs_in flat_map]. unfold requeue. cbv zeta. assert (G : forall ev, books q (call_ C None (ERequeue ev) (q_set_last (Some now) q)) [] [ev]).
    { intros ev'. split; [split; [intros H; unfold call_; rewrite call_eq; cbn; apply Forall_app; split; [exact H|repeat constructor]|eapply adv_trans with (b := q_set_last (Some now) q); [now apply adv_same|apply adv_call]]|]. unfold call_. rewrite call_eq. cbn [fst]. intros I. exists [(None, ERequeue ev')]. split; [reflexivity|]. pose proof (rep_step (q_ep q) (ERequeue ev') I) as R. rewrite seen_none in R by discriminate.
      unfold asks in R. cbn [made flat_map fst asks app]. rewrite app_nil_r. exact R. }
    destruct ev; try apply G. split; [destruct (negb _); (split; [exact (fun H => H)|now apply adv_same])|]. intros I. exists []. cbn [filter]. rewrite XD. destruct (negb _); cbn; rewrite !app_nil_r; auto.
  - destruct (plain o) eqn:PL; [|now apply fr_books, fr_refl]. destruct (plain_not o PL) as (T & N & A). set (q0 := match last with Some n => _ | None => _ end). assert (F0 : fr q q0) by (subst q0; destruct last; [now apply fr_still|apply fr_refl]). clearbody q0.
    pose proof (fr_call None o q0 T N) as F. rewrite A in F. specialize (F (fun _ => eq_refl)). unfold call_ in F. destruct (call C None o q0) as [q1 outs]. cbn [fst snd] in *.
    replace (evs_in (map YEp outs)) with (@nil event) by (clear; induction outs; [reflexivity|exact IHouts]). apply fr_books. eapply fr_trans; eauto.
  - apply fr_books. now apply fr_reorder.
Qed.
End Frame.
